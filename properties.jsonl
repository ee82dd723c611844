{"id": "C01", "title": "Assignment stores exactly the validated value", "statement": "When `inst.p = v` returns normally and no registered callback writes to inst.p, reading inst.p afterwards gives the value p's validation returned for v (after any rewriting of change['value'] by @validator callbacks), and no other property of inst and no other instance has changed.", "quantifier": "every class, instance, property, assigned value and set of user callbacks", "why_tests_cant": "tests sample a few property types and values; frame conditions need all other properties and instances to be inspected", "anchors": ["properties/base/base.py:HasProperties._set", "properties/basic.py:Property.get_property"]}
{"id": "C02", "title": "A rejected assignment changes nothing", "statement": "If `inst.p = v` is rejected by the property's validation, every instance's stored values are exactly as before and no listener was called; if it is rejected by a @validator callback, the stored value is whatever the callbacks left, and no observer was called.", "quantifier": "every class, instance, property, rejected value, set of callbacks, and point at which the exception is raised", "why_tests_cant": "rejection can happen at any point of an arbitrarily nested validation", "anchors": ["properties/base/base.py:HasProperties._set", "properties/basic.py:Property.get_property", "properties/base/base.py:HasProperties._notify"]}
{"id": "C03", "title": "Notification order and contents", "statement": "A successful assignment calls all 'validate' listeners in registration order, then stores, then (if the value changed) calls all change-only observers in registration order, then all set observers in registration order; each receives the property name, the previous value (undefined if unset), the new value and the mode. A listener registered by another one during the assignment may be called in it, too.", "quantifier": "every number of listeners of each kind and every assigned value", "why_tests_cant": "listener lists are unbounded and tests check a handful of arrangements", "anchors": ["properties/base/base.py:HasProperties._set", "properties/base/base.py:HasProperties._notify", "properties/handlers.py:_get_listeners", "properties/handlers.py:_set_listener"]}
{"id": "C04", "title": "change_only observers fire exactly on change", "statement": "A change-only observer is called by an assignment or deletion if and only if the property went between undefined and defined, or the old and new values are not equal under the property's own equal method.", "quantifier": "every previous and new value of every property type", "why_tests_cant": "pairs of values are unbounded; tolerance and identity based equality differ by type", "anchors": ["properties/base/base.py:HasProperties._set", "properties/basic.py:GettableProperty.equal"]}
{"id": "C05", "title": "Disabled listeners stay silent", "statement": "While execution is inside a listeners_disabled / observers_disabled / validators_disabled block, no listener of a disabled mode is called, on any instance, however deeply nested the code that runs inside; Property validation is not affected.", "quantifier": "every user program run inside the block, including nested blocks and callbacks that set other properties", "why_tests_cant": "the program inside the block is arbitrary", "anchors": ["properties/handlers.py:listeners_disabled", "properties/handlers.py:_get_listeners"]}
{"id": "C06", "title": "Listener suppression is scoped", "statement": "After a with-block on a context object that is not already in use ends, normally or by an exception, the set of suppressed modes is exactly what it was before the block; every library call (construction, deserialization, ...) leaves it unchanged. (A context object used inside its own block leaves all modes suppressed.)", "quantifier": "every nesting of blocks, every program inside, every exception point", "why_tests_cant": "leaks show only on particular exception paths and nestings", "anchors": ["properties/handlers.py:listeners_disabled.__enter__", "properties/handlers.py:listeners_disabled.__exit__", "properties/base/base.py:HasProperties.deserialize", "properties/base/base.py:PropertyMetaclass.__call__"]}
{"id": "C07", "title": "Stored values always satisfy their property's type", "statement": "In every state reachable through the public API, each stored value of each property is a value of that property's type (bounded int, member of choices, RGB triple, instance of the class, container of valid items, ...), as long as no @validator callback replaces change['value'] by something else.", "quantifier": "every class table, every history of public operations by arbitrary user programs and callbacks", "why_tests_cant": "needs an invariant over all operation histories", "anchors": ["properties/base/base.py:HasProperties._set", "properties/base/base.py:HasProperties.deserialize", "properties/basic.py:Property.get_property"]}
{"id": "C08", "title": "Deletion and undefined", "statement": "Deleting a property or assigning properties.undefined makes it unset: reading gives None, it is left out of serialization, listeners receive undefined as value, and the next listener sees undefined as previous.", "quantifier": "every property, instance and history", "why_tests_cant": "depends on the whole history of sets and deletes", "anchors": ["properties/basic.py:Property.get_property", "properties/base/base.py:HasProperties._set", "properties/base/base.py:HasProperties._get"]}
{"id": "C09", "title": "Defaults on construction and reset", "statement": "A newly constructed instance with no keyword arguments holds for each property the validated default, where a class-level _defaults entry takes precedence over the property's default and callables are called once per instance; no listener is called; reset of a property later gives it the default again.", "quantifier": "every class, every default (value, callable or undefined)", "why_tests_cant": "ranges over all classes and default sources", "anchors": ["properties/base/base.py:PropertyMetaclass.__call__", "properties/base/base.py:HasProperties._reset", "properties/basic.py:GettableProperty.default"]}
{"id": "C10", "title": "Constructor applies every keyword and reports every validation error", "statement": "C(**kwargs) attempts every keyword in order even after failures; if any assignment raised ValidationError, one ValidationError with the concatenation of all error tuples, in keyword order, is raised; otherwise the first other generic error is raised; an unknown keyword raises AttributeError at once.", "quantifier": "every keyword list and every combination of failing keywords", "why_tests_cant": "combinations of failures are unbounded", "anchors": ["properties/base/base.py:HasProperties.__init__"]}
{"id": "C11", "title": "Immutable properties never change", "statement": "The value of a GettableProperty (for example Uuid) never changes after construction: every later assignment or deletion raises AttributeError, and no public operation on any instance changes it.", "quantifier": "every history of public operations", "why_tests_cant": "needs an invariant over histories", "anchors": ["properties/basic.py:GettableProperty.get_property", "properties/base/base.py:PropertyMetaclass.__call__"]}
{"id": "C12", "title": "Renamed properties are aliases", "statement": "Getting, setting and deleting through a Renamed property behaves exactly as on the property it names: same result or exception, same effects, same notifications; the old name itself holds no value unless a class gives it a default. Renamed properties that lead to each other recurse without end on every access.", "quantifier": "every class, value and state", "why_tests_cant": "equivalence over all values and callbacks", "anchors": ["properties/basic.py:Renamed.get_property"]}
{"id": "C13", "title": "Dynamic properties are computed and never stored", "statement": "Reading a dynamic property returns the validated result of its getter (None if the getter returns None or undefined); its setter only receives validated values; without setter/deleter an AttributeError is raised; construction, assignment and deletion store nothing under its name (deserializing a dictionary that has the key does).", "quantifier": "every getter, setter and value", "why_tests_cant": "getter and setter are arbitrary code", "anchors": ["properties/basic.py:DynamicProperty.get_property"]}
{"id": "C14", "title": "validate() accepts exactly the valid object graphs", "statement": "If the user code that validation calls (validators, class validators, getters) only reads, inst.validate() returns True exactly for valid object graphs and raises otherwise: every required property of inst is set, every stored value is accepted unchanged (up to equality) by its validators and by its property's validation, container lengths are within limits, every class validator passes, and the same holds for the instances that the validity depends on, on cycles too. Without Union properties these are all reachable instances. Violated with Unions: an invalid instance inside a Union is not reported if another alternative accepts the value. With Unions, validate may also raise an exception that is not collected (such as OverflowError) on a graph that is valid by a later alternative. The option required of a contained property makes no difference while the attribute is set. A stored value of a type for which validation is idempotent (C22) can only fail for parts that are not equal to themselves (nan and infinite floats, which Float accepts), lengths outside the limits and invalid nested instances.", "quantifier": "every object graph, cyclic ones and shared nodes included", "why_tests_cant": "graphs are unbounded and the recursion guard makes cyclic cases subtle", "anchors": ["properties/base/base.py:HasProperties.validate", "properties/base/base.py:HasProperties._validate_props", "properties/base/instance.py:Instance.assert_valid", "properties/basic.py:Property.assert_valid"]}
{"id": "C15", "title": "validate() terminates and restores its guards", "statement": "If the user code that validation calls only reads, inst.validate() terminates on every finite object graph; every stored value and every recursion guard is as before, on success and on failure. The guards are restored whatever user code does. Instances that a program creates have their serialize and equal guards down afterwards.", "quantifier": "every finite object graph", "why_tests_cant": "non-termination on an untested cycle shape cannot be excluded by tests", "anchors": ["properties/base/base.py:HasProperties.validate"]}
{"id": "C16", "title": "serialize() detects self references and nothing else", "statement": "If the user code that serialization calls (getters) only reads, serialize() terminates on every finite object graph, leaving every stored value and its guard as before even when it raises. It returns exactly the JSON described by the graph, serializing shared instances in full at every occurrence; on a graph with an instance reachable from itself through serialized properties it raises. It raises SelfReferenceError only on such graphs (unless a getter raises it), and always on such graphs if each instance by itself can be serialized; otherwise another exception may be raised first.", "quantifier": "every finite object graph", "why_tests_cant": "graph shapes are unbounded", "anchors": ["properties/base/base.py:HasProperties.serialize", "properties/base/instance.py:Instance.serialize"]}
{"id": "C17", "title": "Serialization round trip", "statement": "For an instance whose object graph is acyclic, whose stored values JSON can carry (see portable in RoundSpec.v: valid, no sub-second dates, dictionary keys hashable in JSON, Union values not mistaken for an earlier alternative), whose properties with defaults are set, and whose classes can be constructed without arguments, serialize gives some JSON, and deserializing it in any state (and copy) gives newly allocated instances with the same class and the same property values at every node, and changes no object that existed before. Sharing is not preserved. A deleted property with a default comes back with the default; Union(String, DateTime) turns a date into a string and Union(Integer, String) turns '5' into 5; a copy is equal to the original if no property is dynamic or renamed and the stored values are equal to themselves (leaves of Sets compared by ==); under the same conditions, without Unions and with only the built-in class validator, the copy of a valid object graph is a valid object graph, as long as no validators are registered on the new instances; a copy holding nan or an infinite float is not equal to the original. A dictionary whose keys are colours cannot be serialized; nor, whatever else the instance holds, one with a key that is a container or an instance.", "quantifier": "every such graph over the JSON-safe property types", "why_tests_cant": "needs induction over property types and graph depth", "anchors": ["properties/base/base.py:HasProperties.serialize", "properties/base/base.py:HasProperties.deserialize", "properties/base/base.py:copy"]}
{"id": "C18", "title": "equal() is a sound comparison", "statement": "If the user code that a comparison calls (getters, defaults) only reads, properties.equal terminates on every pair of instances, leaving every object and its guard as before. It is True for an instance and itself, and True only for instances of the same class with pairwise equal properties. If nothing below the first instance refers back to itself and no Set or Union properties are involved it decides that structural equality, and then it is symmetric (dictionaries having distinct string keys). On cyclic graphs it is not symmetric, and sets of floats can be reported different although their elements are equal one to one within the tolerance. Since floats are compared with a tolerance it is not transitive.", "quantifier": "every pair of object graphs", "why_tests_cant": "pairs of graphs are unbounded; guards make it order dependent", "anchors": ["properties/base/base.py:equal"]}
{"id": "C19", "title": "Deserialization constructs only permitted classes", "statement": "deserialize returns an instance of the class it is called on unless trusted=True and the named class is in the registry; with strict=True a mismatching class name or an unused key raises ValueError before any instance is created; otherwise unused keys are ignored.", "quantifier": "every input dictionary and registry", "why_tests_cant": "inputs are arbitrary dictionaries", "anchors": ["properties/base/base.py:HasProperties.deserialize", "properties/base/base.py:HasProperties._deserialize_class"]}
{"id": "C20", "title": "Deserialization is silent", "statement": "No listener is called while deserialize (without assert_valid, which validates the finished result) or copy builds the instance graph, whether it succeeds or raises, for classes whose Unions are not strict about the instances in them and whose dynamic and gettable properties hold no instances and have defaults that only compute a value. The suppression state is restored afterwards even on errors, for all classes. Deserializing a dynamic property of Instance type, or a strict Union with instances whose validators assign properties, does call listeners.", "quantifier": "every input dictionary, class table and user callbacks", "why_tests_cant": "inputs and callbacks are arbitrary", "anchors": ["properties/base/base.py:HasProperties.deserialize"]}
{"id": "C21", "title": "filter_props partitions its input", "statement": "filter_props returns two dictionaries that partition the input: the first has exactly the keys that name a property (or only mutable/renamed ones if include_immutable is False), values and order unchanged.", "quantifier": "every class and dictionary", "why_tests_cant": "all dictionaries", "anchors": ["properties/utils.py:filter_props"]}
{"id": "C22", "title": "Validation is idempotent", "statement": "Validating an already validated value returns the same value, raises nothing and changes nothing, also at a later time and for another instance. This holds for every leaf type whose string options do not interact, and for all containers of such leaves and of instances. So every stored value of such a type is accepted as it is, in every state any program can reach, if validators leave values alone. It fails for some combinations of String options, and for Unions: an instance can be invalid right after an accepted assignment.", "quantifier": "every built-in property type with every option setting and every accepted input", "why_tests_cant": "the documentation demands it of every property type and option combination; tests cover few", "anchors": ["properties/basic.py:GettableProperty.validate", "properties/basic.py:String.validate", "properties/basic.py:Color.validate", "properties/basic.py:Integer.validate", "properties/base/containers.py:Tuple.validate"]}
{"id": "C23", "title": "Numeric properties respect their bounds", "statement": "A value accepted by Integer is a Python int within [min, max]; a value accepted by Float is a float that is not below min and not above max; without cast, accepted input differs from the result by at most the tolerance; bounds are inclusive; rejections are ValidationErrors.", "quantifier": "every int, IEEE double (nan, infinities, subnormals included) and bound setting", "why_tests_cant": "2^64 doubles and unbounded ints", "anchors": ["properties/basic.py:Integer.validate", "properties/basic.py:Float.validate", "properties/basic.py:_in_bounds"]}
{"id": "C24", "title": "StringChoice returns the unique matching choice", "statement": "StringChoice accepts a string exactly when it equals a choice or alias (ignoring case unless case_sensitive), returns the key of that choice, and because declared choices may not collide the result does not depend on their order.", "quantifier": "every choice table accepted by the choices setter and every input", "why_tests_cant": "all tables and strings", "anchors": ["properties/basic.py:StringChoice.validate", "properties/basic.py:StringChoice.choices"]}
{"id": "C25", "title": "Color yields an RGB triple", "statement": "A value accepted by Color is a triple of ints in 0..255; '#RRGGBB' and 'RGB' hex give the denoted components; every standard web colour name is accepted; all other strings are rejected.", "quantifier": "every string and every sequence", "why_tests_cant": "all strings", "anchors": ["properties/basic.py:Color.validate", "properties/basic.py:COLORS_NAMED"]}
{"id": "C26", "title": "DateTime JSON round trip", "statement": "from_json(to_json(d)) is d with sub-second precision dropped; a 10 character date parses to midnight of that day; malformed or impossible dates are rejected with ValueError.", "quantifier": "every datetime and every string", "why_tests_cant": "all dates and strings", "anchors": ["properties/basic.py:DateTime.to_json", "properties/basic.py:DateTime.from_json"]}
{"id": "C27", "title": "Uuid JSON round trip", "statement": "from_json(to_json(u)) == u, and distinct uuids have distinct JSON text.", "quantifier": "all 2^128 uuids", "why_tests_cant": "2^128 values", "anchors": ["properties/basic.py:Uuid.to_json", "properties/basic.py:Uuid.from_json"]}
{"id": "C28", "title": "Container validation is element-wise", "statement": "Tuple/List/Set/Dictionary validation succeeds exactly when the container type is acceptable and every item is accepted by the item property; the result has the item results in the same order (sets and dict keys deduplicated), and one bad item, key or value makes the whole assignment fail. With coerce=True a Dictionary takes an iterable of pairs with hashable keys as the dictionary of these pairs, and rejects anything else with a ValidationError.", "quantifier": "every item property, container and length", "why_tests_cant": "unbounded lengths and nesting", "anchors": ["properties/base/containers.py:Tuple.validate", "properties/base/containers.py:Dictionary.validate"]}
{"id": "C29", "title": "Union uses the first accepting alternative", "statement": "Union validation returns the result of the first alternative that accepts the value, raises ValidationError if and only if all alternatives reject it, and never consults later alternatives, as long as the alternatives raise only ValueError, KeyError, TypeError and AttributeError; an OverflowError of an alternative passes through.", "quantifier": "every list of alternatives and every value", "why_tests_cant": "all alternative lists", "anchors": ["properties/base/union.py:Union._try_prop_method", "properties/base/union.py:Union.validate"]}
{"id": "C30", "title": "Inherited properties follow the MRO", "statement": "The names in the property table of a class are those defined in its body and those of a base that the body does not mention. With single inheritance, and with multiple inheritance when the bases' MROs written one after the other are in MRO order and no other attribute comes before an inherited property, the table contains for each name exactly the Property that attribute lookup along the MRO finds, and no name whose lookup finds something else; the same holds for observers and class validators. Otherwise the table can differ from attribute lookup.", "quantifier": "every class hierarchy with multiple inheritance", "why_tests_cant": "hierarchies are unbounded", "anchors": ["properties/base/base.py:build_from_bases", "properties/base/base.py:PropertyMetaclass.__new__"]}
{"id": "C31", "title": "Class defaults follow the MRO and are checked", "statement": "The _defaults of a class are its own over the tables of its ancestors in MRO order (with single inheritance: the first class body along the MRO that gives the default decides; in a diamond it need not). Class creation succeeds only if every own or inherited default names a property and is undefined or accepted by the property's validation; it fails with AttributeError if a default names an unknown property or validating it raises ValueError, other exceptions pass through.", "quantifier": "every hierarchy and default table", "why_tests_cant": "hierarchies are unbounded", "anchors": ["properties/base/base.py:PropertyMetaclass.__new__"]}
{"id": "C32", "title": "Class creation rejects dangling names", "statement": "Class creation fails with TypeError if a Renamed property of the body points to no property or an observer/validator of the body names something that is not a mutable property (inherited ones are not checked again); every declared observer is called when any of its names is set on an instance.", "quantifier": "every class body", "why_tests_cant": "all class bodies", "anchors": ["properties/base/base.py:PropertyMetaclass.__new__", "properties/handlers.py:_set_listener"]}
{"id": "C33", "title": "Observable containers notify and validate every mutation", "statement": "With observe_mutations=True, every mutating method called on the stored container behaves as copy, mutate, assign: the new items are validated, become a new observed value and listeners are notified as by one assignment; a failure without a write leaves the stored container unchanged and observed; containers that are no longer stored mutate silently. In every history without in-place operators and replaced values all stored containers are observed, and hold validated items if validators do not mutate the new value. Violated: in-place operators end the observation when the assignment fails or does not happen (y = x.a; y += ...); a validator that mutates change['value'] stores unvalidated items.", "quantifier": "every sequence of mutations on stored and stale containers", "why_tests_cant": "needs all histories of aliasing and mutation", "anchors": ["properties/base/containers.py:properties_mutator", "properties/base/containers.py:observable_copy"]}
{"id": "C34", "title": "directional_link propagates source to target", "statement": "While linked and not disabled, an assignment to a source that changes its value ends with the target holding the validated transform of the source value, and so on along every path of links whose items change, also in cyclic networks whose transforms agree. No item without a path of links from the assigned one changes, so the reverse direction does not propagate; after unlink nothing propagates, and relink undoes unlink; the guard flag is always cleared; every history of linking, unlinking, relinking, observing, assigning and deleting keeps the network in order. With transforms that do not agree along a cycle the target differs from the transform of the source; deleting a linked source raises after deleting it; a change_only chain stops at an item that already holds the value.", "quantifier": "every source/target pair, transform, value and history of link/unlink/relink", "why_tests_cant": "all histories", "anchors": ["properties/link.py:directional_link._update"]}
{"id": "C35", "title": "link keeps all items in sync and terminates", "statement": "With any number n >= 2 of different linked properties whose types accept the value and whose listeners do not raise, changing any one of them makes all of them hold the new value and changes nothing else. Every assignment or deletion in every network of links (cycles included) whose other listeners and transforms do not assign properties ends after finitely many notifications. Unlinking the link separates its items completely (if they have no other links): an assignment to one changes no other; relinking it gives back exactly the state of before, unless one of its directional links had been disabled on its own, which relinking enables again.", "quantifier": "every number of linked items, every choice of the changed one and every value", "why_tests_cant": "n is unbounded and n*(n-1) directional links can re-enter each other", "anchors": ["properties/link.py:link", "properties/link.py:directional_link._update"]}
{"id": "C36", "title": "HasUID ids are unique and loadable", "statement": "In every history of constructions, assignments and deletions with listeners enabled and fresh default uids, the uid of each constructed instance loads that instance, so no two instances have the same uid; assigning a uid registered to another instance is a ValidationError and changes nothing. Violated: with listeners disabled nothing is checked; a failed construction keeps the uid it was given; deleting the uids of two instances fails; a uid given up stays registered, so load returns an instance that no longer has it.", "quantifier": "every history of constructions and uid changes", "why_tests_cant": "all histories", "anchors": ["properties/extras/uid.py:HasUID._ensure_unique", "properties/extras/uid.py:HasUID._update_instances", "properties/extras/uid.py:HasUID.load"]}
{"id": "C37", "title": "HasUID serialization handles cycles", "statement": "Serializing a HasUID graph terminates on every finite graph including cycles and gives a flat dictionary with exactly one entry per reachable instance plus the root (uids distinct and not '__root__'); whenever deserializing it returns, it has rebuilt an isomorphic graph of new, registered instances. It returns if and only if no reachable uid is registered and every reachable instance c is referred to at most once by the instances reachable from the root without passing c and at most once by the other ones; hence every instance that is not on a cycle at most once, every other at most twice and the root at most once. With the keyword argument root any entry is rebuilt in place of the root, together with what is reachable from it. A dictionary without a root, or whose root is registered and also an entry, or neither, is rejected with ValueError leaving heap and registry alone; a root that is registered and no entry is returned. Violated: a graph without cycles in which an instance is referred to twice can never be deserialized ('UID already used'), even into an empty registry, and deserializing the dictionary of an instance that exists, as properties.copy does, always raises ValueError.", "quantifier": "every finite HasUID graph", "why_tests_cant": "graphs are unbounded", "anchors": ["properties/extras/uid.py:HasUID.serialize", "properties/extras/uid.py:HasUID.deserialize"]}
{"id": "C38", "title": "Singleton identity", "statement": "For a registry and outside of a running construction of the same name, constructing or deserializing with the same identifying name always returns the same instance (a first deserialization counts if the class named by the dictionary uses the same registry and its name property deserializes names to themselves); different names give different instances; an instance whose construction failed is never registered; a serialized instance deserializes to itself. Unhashable names are rejected with TypeError, dictionaries without a name with ValueError, registering nothing. Violated: code that a construction calls may construct the same name, giving two instances; a deserialization that fails late has registered its instance; deserialize removes '_singleton_id' from the caller's dictionary, so using the dictionary again may give another instance.", "quantifier": "every history of constructions and deserializations", "why_tests_cant": "all histories", "anchors": ["properties/extras/singleton.py:SingletonMetaclass.__call__", "properties/extras/singleton.py:Singleton.deserialize"]}
{"id": "C39", "title": "Tasks only run on valid input and only return valid output", "statement": "run is called only with a new instance of Input on which validate() has just succeeded, and process_output only with the BaseOutput instance that run returned, on which validate() has just succeeded; the task returns what process_output returned, otherwise it raises (a ValidationError with reason invalid_class for outputs of another class). Whenever the keyword arguments deserialize (unknown ones ignored) to an instance whose validate() succeeds, run is called with it.", "quantifier": "every task class, keyword input and run function", "why_tests_cant": "run is arbitrary code", "anchors": ["properties/extras/task.py:BaseTask.__call__"]}
{"id": "C40", "title": "Array shape and dtype checks", "statement": "Array accepts a list, tuple or array exactly when the (coerced) array has an allowed dtype kind and its shape matches one of the allowed shapes (entry '*' matches any length); vector types accept exactly what reads as an array of their class, kind float and their declared shape: a direction name stands for its vector, and in arrays of vectors each item of a list that is a name does, which replaces the item in the list of the caller; shape and dtype cannot be lost whatever is assigned to their options. The option setters accept exactly shapes of integers and '*', sets of such shapes, numeric types and booleans, and raise TypeError otherwise (AttributeError for the options that vectors do not have). (A tuple of direction names raises TypeError, and a list of names is changed in place even when rejected.)", "quantifier": "every shape, dtype and shape specification", "why_tests_cant": "all shapes and ranks", "anchors": ["properties/math.py:Array.validate", "properties/math.py:Array._validate_shape"]}
{"id": "C41", "title": "Option setters keep options consistent", "statement": "After any sequence of option assignments (rejected ones included) on Integer/Float min and max (nan aside), container min_length and max_length, the options are mutually consistent (min <= max, ...); File mode and valid_modes only hold known modes, and with mode assigned before valid_modes, as the constructor does, mode is among valid_modes (a later mode assignment breaks that). Each setter accepts exactly the values it should, changes only its option, and raises TypeError otherwise; but a lone bound may be no number at all, and a bound cannot be set back to None while there is another.", "quantifier": "every sequence of option assignments", "why_tests_cant": "all sequences", "anchors": ["properties/basic.py:Integer.min", "properties/basic.py:Integer.max", "properties/base/containers.py:Tuple.min_length", "properties/basic.py:File.valid_modes"]}
{"id": "C42", "title": "The error hook sees failures, once", "statement": "validate() calls _error_hook exactly once, with the error tuples it raises, if it raises a ValidationError, and not at all otherwise, whatever user code runs during it (validations nested in a validation of the same instance excepted); so does the constructor for the errors of its keywords. An assignment that the property rejects ends with a call of the hook with the tuples that are raised; for basic properties that is the only call (Integer, Float and Complex may call it twice), and successful assignments to properties without Unions and Instances do not call it. It is called twice for a rejected list item or a non-integral number, is called by successful assignments to Unions, and is not called when a computed default is invalid.", "quantifier": "every property type and every failing or succeeding operation", "why_tests_cant": "nested property types multiply the paths", "anchors": ["properties/utils.py:ValidationError.__init__", "properties/basic.py:GettableProperty.error", "properties/base/base.py:HasProperties._error_hook"]}
{"id": "C43", "title": "stop_recursion_with runs once per object", "statement": "A method decorated with stop_recursion_with runs its body at most once per object on the call stack, returns the backup on recursive calls, and releases the object even when the body raises; with a backup that is not callable it terminates on every finite object graph (a callable backup that calls the method again does not).", "quantifier": "every body, object graph and backup", "why_tests_cant": "bodies are arbitrary recursive code", "anchors": ["properties/utils.py:stop_recursion_with"]}
{"id": "C44", "title": "PNG bytes survive JSON", "statement": "ImagePNG.from_json(to_json(image)) holds exactly the bytes of the image from its stream position on, so all of them for an image as validate returns it. An image with the signature at its start has the same text however often it is serialized, and what is read from the text is accepted again, as the same image. (A file standing behind other bytes is accepted for the signature at its position but copied as a whole, and then does not come back.)", "quantifier": "every byte string", "why_tests_cant": "all byte strings", "anchors": ["properties/images.py:ImagePNG.to_json", "properties/images.py:ImagePNG.from_json"]}
{"id": "C45", "title": "Special floats survive JSON", "statement": "Float.from_json(Float.to_json(f)) is f for every double, and the JSON form of nan and infinities is a string.", "quantifier": "all doubles", "why_tests_cant": "2^64 values", "anchors": ["properties/basic.py:Float.to_json", "properties/basic.py:Float.from_json"]}
{"id": "C46", "title": "Container length limits are enforced on validate()", "statement": "Assignment treats containers of any length alike, but validate() on the instance succeeds only if the length of every container value is within [min_length, max_length], inclusive (inside a Union: of one accepting alternative).", "quantifier": "every length and limit", "why_tests_cant": "all lengths", "anchors": ["properties/base/containers.py:Tuple.assert_valid"]}
{"id": "C47", "title": "String options", "statement": "An accepted string matches the regex, and the result is the input with the strip characters removed from both ends and the case changed as requested; non-strings are rejected.", "quantifier": "every option combination and string", "why_tests_cant": "all strings", "anchors": ["properties/basic.py:String.validate"]}
{"id": "C48", "title": "Pointer accepts instances and uids", "statement": "A Pointer accepts exactly: values that are or become instances of its class, and strings that name a uid, i.e. that its uid property (if there is one) and validate_uid (if there is one) accept; with load=True a uid that loads something is replaced by the instance this is or becomes, or rejected. None is rejected. If uid property, validate_uid and load raise only ValidationErrors and the constructor only generic errors, so does the Pointer. The check of a stored value passes exactly if it is None, or is accepted as something equal, and if it is an instance, that is valid; so what was assigned passes, if it is text or a valid instance, as long as the class accepts and loads the same. Not so if a stored uid becomes loadable: then the check fails. Uids and None survive JSON; an instance that is written as its uid (inside a flat dictionary) is read as the uid.", "quantifier": "every value, any class pointed to and any state of its registry", "why_tests_cant": "all registry states", "anchors": ["properties/extras/uid.py:Pointer.validate", "properties/extras/uid.py:Pointer.deserialize", "properties/base/instance.py:Instance.assert_valid"]}
{"id": "C49", "title": "Boolean accepts only booleans", "statement": "Without cast, Boolean accepts exactly bool values and returns them unchanged; with cast it accepts everything and returns its truth value; from_json maps the documented words to booleans and rejects other strings.", "quantifier": "every Python value", "why_tests_cant": "all values", "anchors": ["properties/basic.py:Boolean.validate", "properties/basic.py:Boolean.from_json"]}
{"id": "C50", "title": "File property modes", "statement": "A value accepted by File is an open file-like object whose mode (if it has one) is among valid_modes. In every history of assignments and deletions a file is closed once for every deletion of the property while it is stored, and otherwise left as it was; ImagePNG copies the file it is given and closes it. (ImagePNG accepts closed streams it validated before; mode 'wb+' rejects every file name after opening it; a vetoed deletion has already closed the file; a file the property opened stays open when another is assigned.)", "quantifier": "every file-like object and mode setting", "why_tests_cant": "all combinations", "anchors": ["properties/basic.py:File.validate", "properties/basic.py:File.get_property"]}
{"id": "C51", "title": "StringChoice options stay unambiguous", "statement": "Choices are accepted exactly when they are a collection of strings, or a dictionary from strings to one or several strings, of which no two (keys and aliases) coincide under the case rule; descriptions exactly when they map each choice to a string. The choices stay unambiguous under any further assignments of choices and descriptions as long as case_sensitive is not changed afterwards (changing it, or changing the choices after the descriptions, breaks it).", "quantifier": "every table, every sequence of option assignments", "why_tests_cant": "all tables and sequences", "anchors": ["properties/basic.py:StringChoice.choices", "properties/basic.py:StringChoice.case_sensitive", "properties/basic.py:StringChoice.descriptions"]}
{"id": "C52", "title": "URL accepts URLs only and removes what it is told to", "statement": "URL.validate accepts exactly the strings that pass String.validate and then, without leading control characters and without tabs and newlines, read as scheme://netloc followed by path, query and fragment, with a netloc that is not empty and whose brackets are balanced around an accepted host. The result has the scheme in lower case, the same netloc, and the same other parts except empty ones and those removed by remove_parameters and remove_fragment; without strip and regex it is validated to itself. Path parameters are removed only from the last segment and only for some schemes; strip and regex are applied before the removal, so that a stored value may be changed or rejected by a second validation; unbalanced brackets raise a ValueError that is not a ValidationError.", "quantifier": "every value, every combination of options, every judgement on bracketed hosts", "why_tests_cant": "all ASCII strings and all options", "anchors": ["properties/extras/web.py:URL.validate"]}
{"id": "C53", "title": "Declaring a number checks the options and the default", "statement": "Integer(doc, **keywords) and Float(doc, **keywords) succeed exactly when doc is a string, every keyword is an attribute with a setter or a method or constant of the class with a value its setter takes, given bounds are numbers with min not above max, and the default is undefined, None, valid under the other options, or a callable whose result is. The result has the options given, the defaults of the library for the others, whatever the order of the keywords. Other keywords (private, terms, without setter, unknown) raise AttributeError. The order matters if a bound is None; a keyword naming a method replaces it, validate included; assigning options later does not check the default again.", "quantifier": "every list of keywords with distinct names, every environment, every judgement on callables", "why_tests_cant": "all combinations and orders of keywords", "anchors": ["properties/basic.py:GettableProperty.__init__", "properties/basic.py:GettableProperty.default", "properties/basic.py:Integer.min", "properties/basic.py:Integer.max"]}
{"id": "C54", "title": "Functions of a dynamic property take the arguments they are given", "statement": "DynamicProperty accepts exactly a callable that, as far as it has __code__, has one positional parameter, and has a name; its setter and deleter decorators accept exactly callables with two and one positional parameters and the name of the property. After any sequence of decorations and renamings every stored function can be called as the library calls it, if it is not a bound method and has no required keyword-only parameters; and setter and deleter are named as the getter until the property is renamed. Functions that could be called, because of default arguments or *args, are rejected; required keyword-only parameters and the bound argument of a method are not noticed.", "quantifier": "every function signature, every sequence of setter, deleter and name assignments", "why_tests_cant": "all signatures and sequences", "anchors": ["properties/basic.py:DynamicProperty.__init__", "properties/basic.py:DynamicProperty.func", "properties/basic.py:DynamicProperty.setter", "properties/basic.py:DynamicProperty.deleter"]}
{"id": "C55", "title": "The default of a Union is a valid value", "statement": "A default given to a Union is accepted exactly if some alternative accepts it, and otherwise TypeError is raised. Without one, the default is that of the first alternative that has one. Either way it is a valid value of the Union, if the alternatives accept their own defaults and raise generic errors only. It may be an earlier alternative that accepts it, giving another value; default=undefined does not remove the default of an alternative; a callable default may be called several times.", "quantifier": "every list of alternatives, every default", "why_tests_cant": "alternatives are arbitrary functions", "anchors": ["properties/base/union.py:Union.default", "properties/base/union.py:Union.validate"]}
{"id": "C56", "title": "Listeners are declared for the names given", "statement": "observer and validator accept exactly a string, a tuple, list or set of strings, or everything; they give a declaration for the class (mode observe_set, or observe_change with change_only, or validate), or register the function on the instance: for every name and mode listeners are added to those present once per mention of the name, and nothing else changes. listeners_disabled accepts exactly None and names of modes, and raises TypeError otherwise. A name mentioned twice calls the function twice; a missing function is registered.", "quantifier": "every value given as names, every instance and state", "why_tests_cant": "all values and states", "anchors": ["properties/handlers.py:Observer.names", "properties/handlers.py:observer", "properties/handlers.py:validator", "properties/handlers.py:listeners_disabled.disable_type", "properties/handlers.py:_set_listener"]}
{"id": "C57", "title": "Custom serializers are called with the keywords they take", "statement": "A custom serializer or deserializer that does not raise TypeError is called once, with include_class (trusted) added to the keywords; one that takes no keywords is called with the value only, and its result is returned. A TypeError from inside the function causes a second call without keywords, whose result is returned.", "quantifier": "every function of value and keywords", "why_tests_cant": "all functions", "anchors": ["properties/basic.py:accept_kwargs", "properties/basic.py:GettableProperty.serialize", "properties/basic.py:GettableProperty.deserialize"]}
{"id": "C58", "title": "Equality of arrays compares class, shape, nan positions and items", "statement": "Array.equal(a, b) for numeric arrays is True exactly if both have the same class and the same shape and every pair of items is: both nan, the same infinity, or finite with |x - y| <= 1e-9 + 1e-5 |y| in double arithmetic; in particular every array equals itself, nan included. The relation is not symmetric and far coarser than that of Float (99999 equals 100000, but not the other way round).", "quantifier": "all arrays of bool, int64 and float64 items, of any class and shape", "why_tests_cant": "all shapes and all doubles", "anchors": ["properties/math.py:Array.equal"]}
{"id": "C59", "title": "Arrays come back from JSON", "statement": "Array.to_json gives nested lists of booleans, finite numbers and strings, for every array of bools, ints or floats whose shape nested lists can tell (at least one dimension, and none but the last empty). If dtype[0] is the type of the array, deserialize gives the same array, with nan and infinities, provided that float(str(x)) is x; arrays of bools and ints read with dtype[0] float give an equal array. From any value, deserialize gives an array exactly if the value is nested lists of one shape with items bool, int, float or string: the items are first brought to the largest of their types in that order (ints in int64, or as nearest doubles; in an array with a string all become text), then converted to dtype[0]; ragged lists raise ValueError, other items TypeError, too large ints OverflowError, unreadable text ValueError. Vectors and arrays of vectors with finite coordinates come back the same from to_json, through from_json and through deserialize, provided that the constructor of their class makes vectors of lists of finite doubles (with nan or infinities it depends on vectormath). Empty leading dimensions lose the shape, arrays without dimensions cannot be serialized, and with dtype (int, float) doubles are truncated and nan cannot be read. Complex arrays are written with text for the items with nan or infinities and Python complex numbers for the others, so the result is JSON exactly if all items are such; from these lists deserialize with dtype[0] complex gives the array, provided that complex(str(c)) is c for its items.", "quantifier": "all arrays of bool, int64, float64 and complex128 items, all options", "why_tests_cant": "all shapes and all doubles", "anchors": ["properties/math.py:Array.to_json", "properties/math.py:Array.deserialize"]}
{"id": "C60", "title": "A property and what it contains carry the name of the attribute", "statement": "Declaring a class gives every property of its body, and every property contained in it at any depth (items, keys, values, alternatives, the property of a dynamic property), the name of its attribute, and changes nothing else; as long as every property object is used under one name only, these names stay, whatever classes are declared and whatever is done to property objects later. The declaration succeeds if every Renamed property has a target among the properties, and raises TypeError otherwise. (An object used for two attributes serves the last one only, also in another class and even if declaring that one fails; a contained property assigned later has no name; a property that contains itself cannot be declared.)", "quantifier": "all heaps of property objects, all class bodies, all later programs", "why_tests_cant": "any nesting, sharing and order of operations", "anchors": ["properties/base/base.py:PropertyMetaclass.__new__", "properties/base/union.py:Union.name", "properties/base/containers.py:Tuple.name", "properties/basic.py:DynamicProperty.name"]}
{"id": "C61", "title": "Only properties and HasProperties classes may be contained", "statement": "Tuple.prop (List and Set too), Dictionary.key_prop and value_prop, and each alternative of Union.props accept exactly Property objects, which they keep as they are, and HasProperties classes, for which they make a new Instance property; Union.props takes lists and tuples only. Anything else (GettableProperty, Renamed and dynamic properties included) raises TypeError, and the property keeps what it contained; no other property object changes.", "quantifier": "all objects and arguments, all heaps", "why_tests_cant": "any nesting and any argument", "anchors": ["properties/base/containers.py:validate_prop", "properties/base/union.py:Union.props"]}
{"id": "C62", "title": "Tags accumulate and terms are kept", "statement": "tag takes keywords and at most one dictionary: it updates the tags with the dictionary and then with the keywords; any other call raises TypeError and changes nothing. The args and kwargs in the terms of a property are those it was constructed with, forever; its tags change only by tagging this very object. A new property has no tags, except that a dynamic property starts with those of its property.", "quantifier": "all property objects, all programs", "why_tests_cant": "all sequences of operations", "anchors": ["properties/basic.py:GettableProperty.tag", "properties/basic.py:GettableProperty.terms", "properties/basic.py:ArgumentWrangler.__call__"]}
{"id": "C63", "title": "The class that deserialization constructs", "statement": "A class name in serialized data is looked up, by a trusted deserialization, in the registry of the class it is called on: the dictionary of the first class in its MRO that declares _REGISTRY. The result is the last class declared with that name among those with the same registry; the class itself if the name is its own, empty or missing; otherwise ValueError if strict, and the class itself if not. An untrusted deserialization only constructs the class itself. So an instance of a class read by another class is restored to its class exactly if that class is the last of its name in this registry: a later class of the same name takes its place, and HasUID classes (which have their own registry) are not found from HasProperties, nor the reverse.", "quantifier": "all sequences of class declarations, all classes and names", "why_tests_cant": "any number of classes, hierarchies and name clashes", "anchors": ["properties/base/base.py:HasProperties._deserialize_class", "properties/base/base.py:PropertyMetaclass.__new__"]}
{"id": "C64", "title": "Values of Instance properties of other classes", "statement": "An Instance property of a class that is not a HasProperties class keeps an instance of the class as it is; otherwise it calls the class, with a dictionary (of string keys) as keywords and anything else as argument. ValueError, KeyError, TypeError and AttributeError of the call become a ValidationError with the name of the property and the instance; other exceptions pass. If the class makes instances of itself, the value is one and is not changed by another validation; a class that makes something else puts that into the property. A stored instance is valid exactly if it equals itself.", "quantifier": "all classes (any constructor and isinstance), all values", "why_tests_cant": "any class and any value", "anchors": ["properties/base/instance.py:Instance.validate", "properties/base/instance.py:Instance.assert_valid"]}
{"id": "C65", "title": "JSON of Instance properties of other classes", "statement": "Without a custom serializer, a value is written exactly if it consists of None, booleans, numbers, strings, lists, tuples and dictionaries with keys of the first four kinds; otherwise TypeError is raised. Tuples become lists and keys become text; of keys with the same text the last counts. JSON is written as it is. What was written cannot be read back without a custom deserializer: that raises TypeError, for every value but None.", "quantifier": "all values", "why_tests_cant": "any nesting", "anchors": ["properties/base/instance.py:Instance.serialize", "properties/base/instance.py:Instance.deserialize", "properties/base/instance.py:Instance.to_json", "properties/base/instance.py:Instance.from_json"]}
{"id": "C66", "title": "Options of Instance", "statement": "instance_class accepts exactly classes, auto_create exactly booleans, default exactly values that are valid (or undefined), and callables whose result is valid; anything else raises (TypeError, or what validation raises) and changes nothing. The default is the last one accepted; without one, the class itself if auto_create was last set to True, else undefined. A default that was accepted passes the check at the declaration of a class, unless the instance_class was changed; auto_create may fail this check.", "quantifier": "all sequences of assignments", "why_tests_cant": "all sequences", "anchors": ["properties/base/instance.py:Instance.instance_class", "properties/base/instance.py:Instance.auto_create", "properties/base/instance.py:Instance._class_default", "properties/basic.py:GettableProperty.default"]}
{"id": "C67", "title": "Vectors are scaled to their length", "statement": "The option length takes exactly bools, ints and floats that are not zero or less (nan and infinity included) and keeps their double; a too large int raises OverflowError, anything else TypeError. With coerce, validation makes a new array, and if this is a vector of the class, with doubles and a shape of the property, scales it to length and returns it; existing arrays do not change. Without coerce, lists are rejected and the given array itself is scaled and returned, so the argument changes; other arrays do not. A vector that cannot be scaled because its length is zero raises a ZeroDivValidationError. With coerce, the check of a stored vector passes exactly if it equals its scaled copy; without, exactly if it is such a vector and can be scaled, and it is scaled by the check: a stored vector of the wrong length is not reported.", "quantifier": "all arrays and other values, all options, any constructor and scaling function", "why_tests_cant": "any array contents, any aliasing", "anchors": ["properties/math.py:BaseVector.length", "properties/math.py:BaseVector.validate", "properties/math.py:Array.validate", "properties/basic.py:GettableProperty.assert_valid"]}
{"id": "C68", "title": "Errors say what was expected and what was given", "statement": "Reading the info of a property gives a text unless a StringChoice in it lacks the description of a choice (KeyError) or a dynamic property in it is made from a URL (TypeError); descriptions that were accepted describe every choice. The text contains the texts of all contained properties, every choice in quotes with its description, the bounds of a number and of a length in order, the pattern, modes, class, dtypes and dimensions. The message of an error contains the class and name of the property, the class of the instance, the info, the type of the value, the extra text, and the repr of the value: all of it up to 107 characters, otherwise its first and last 50, so the length of the message is bounded independently of the value. Arrays and sequences given to an array property are described by shape and dtype, or type and length. If there is an info, error raises a ValidationError with reason 'invalid' and the name, or the class it was given, with the message; otherwise the KeyError or TypeError. The last happens: choices replaced after descriptions raise KeyError for every invalid value.", "quantifier": "all properties nested to any depth, all values, names and texts", "why_tests_cant": "any nesting, texts of any length", "anchors": ["properties/basic.py:GettableProperty.error", "properties/math.py:Array.error", "properties/basic.py:StringChoice.info", "properties/base/containers.py:Tuple.info", "properties/base/containers.py:Dictionary.info", "properties/base/union.py:Union.info"]}
{"id": "C69", "title": "Old names and ignored defaults warn", "statement": "Getting, setting or deleting an attribute through an old name warns once for every Renamed property on the way that has warn=True, in order, with a FutureWarning that mentions the old and the new name, and then does the same to the final name; if a warning is turned into an exception, the access ends there and nothing else happens. Names that never end, or too late, raise RecursionError, and nothing is accessed. new_name must be a string and warn a boolean, True by default. The default of a Union is the first of its own and those of its alternatives; every other default warns exactly if it differs from that. auto_create warns even if its value is then rejected. Property classes with info_text or a method info get class_info and a property info, with a warning each.", "quantifier": "all chains of renamed properties, all filters of warnings, all lists of defaults", "why_tests_cant": "any chain, any filter", "anchors": ["properties/basic.py:Renamed", "properties/basic.py:ArgumentWrangler", "properties/base/union.py:Union._unused_default_warning", "properties/base/containers.py:validate_prop", "properties/base/instance.py:Instance.auto_create"]}
{"id": "C70", "title": "Class documentation lists each property once", "statement": "The doc string written for a HasProperties class lists each of its public properties exactly once, and its private ones exactly once if _doc_private is True, grouped into required, optional, other (dynamic, gettable, renamed) and private, and within each group in the documented order. _doc_private is that of the class, or of its first base that has one, and must be a boolean. The order is the _doc_order of the class, which must be a permutation of the documented names (else AttributeError; TypeError if names and numbers are mixed), or that of its first base that has one if it is such a permutation, or alphabetical. The line of a property gives its name, links the types it is made of, and gives its doc, its info and its default unless that is None, undefined or empty. (Nested containers are named from the inside out: a list of tuples is documented as a tuple of lists.)", "quantifier": "all class hierarchies, property tables, declared orders and nested properties", "why_tests_cant": "any hierarchy, any order, any nesting", "anchors": ["properties/base/base.py:PropertyMetaclass.__new__", "properties/basic.py:GettableProperty.sphinx", "properties/basic.py:Property.sphinx", "properties/base/containers.py:Tuple.sphinx_class", "properties/base/union.py:Union.sphinx_class"]}
{"id": "C71", "title": "Declaring a property with options", "statement": "For every property class except DynamicProperty, a call with positional and keyword arguments creates a property exactly if the arguments fit the parameters of the constructor (else TypeError), every keyword names an option or a public method or class attribute of the class (else AttributeError: private names, terms, attributes without setter, unknown names), every value is valid for its option, the options fit together (bounds, lengths, modes, choices with case sensitivity and descriptions), and the default is valid with all other options. A declaration that fails raises TypeError, apart from AttributeError for keywords that are not allowed, IndexError for an empty keyword, OverflowError for a length too large for a float, and what making the text of uid_prop or the default (calling or validating it) raises. The property then has exactly the options supplied, positional, by keyword or by default, and the order of the keywords does not matter. (Except that min=None after max= raises TypeError, that file_modes= replaces the modes that later keywords are checked against, that ImagePNG(mode=None) and File(valid_modes=...) without mode are rejected, and that a default for Uuid raises AttributeError although its base class documents the keyword; a Union without alternatives takes anything as its name.)", "quantifier": "all 28 classes, argument lists, keyword dictionaries, values and worlds of Python objects", "why_tests_cant": "combinations of options, classes and orders", "anchors": ["properties/basic.py:GettableProperty.__init__", "properties/basic.py:GettableProperty.default", "properties/basic.py:StringChoice.choices", "properties/basic.py:File.valid_modes", "properties/base/containers.py:Tuple.max_length", "properties/math.py:Array.shape", "properties/images.py:ImagePNG.__init__"]}
{"id": "C72", "title": "The status line shows the progress as a percentage", "statement": "report_status prints '<task> | <percent>% | <message>' for a TaskStatus, or for a dictionary that is made one: for a progress between 0 and 1 the percentage is an integer from 0 to 100 within 0.51 of 100 times the progress, right-aligned in three characters, and never smaller for more progress, the message is the stored one or empty, and nothing else changes. Anything that is neither a status nor a dictionary of valid values is a ValidationError. (Except that progress is optional but a status without it raises TypeError, and that nan passes the bounds on assignment and raises ValueError.)", "quantifier": "all doubles, messages, states, classes derived from TaskStatus and given values", "why_tests_cant": "rounding of all doubles between 0 and 1", "anchors": ["properties/extras/task.py:BaseTask.report_status", "properties/extras/task.py:TaskStatus"]}
{"id": "C73", "title": "Creating links", "statement": "Creating a directional_link from an item to itself or with a name that the instance does not have, or a link of fewer than two items, raises ValueError and changes nothing. Otherwise, without update_now the link listens to its source and no value changes; with update_now the target also takes the validated transform of the value that the source holds, which spreads along the existing links exactly like an assignment to the target, and nothing else changes. link with update_now on different items without listeners makes all of them hold the value of the first. A directional_link whose creation raises does not listen. Violated: link that raises for one of its items leaves the links between the earlier items working, with no object to unlink them; update_now from an unset property assigns None to the target, which is a validation error for most types.", "quantifier": "all classes, user code, networks of links at rest (cycles included), items, transforms that only compute, and values", "why_tests_cant": "the networks in which a link is created, the values held and the order in which the n*(n-1) links update each other are unbounded", "anchors": ["properties/link.py:directional_link.__init__", "properties/link.py:directional_link._update", "properties/link.py:directional_link._validate", "properties/link.py:link.__init__"]}
{"id": "C74", "title": "Deserializing into an existing instance", "statement": "HasProperties.deserialize with the private keyword _instance returns that instance and calls no listener; it changes nothing but stored property values of that instance, each to the validated result of deserializing the entry of the input, and if it returns all entries that name a property are stored. An instance that is not one of the output class raises ValueError before anything changes. With assert_valid the instance is validated once everything is stored. Deserializing without _instance returns exactly when creating an instance without arguments and deserializing into it, with all listeners disabled, does, and then the result and the state are the same. Disabled modes are restored and stored values stay well typed. Violated: it is not all or nothing, what is stored before an error stays; it changes properties that cannot be assigned, on an instance in use; into an instance of a subclass that redeclares a property without setter it stores a value that the subclass's declaration refuses.", "quantifier": "all class tables, user code, states, inputs and options; storing and equivalence with a new instance for properties without HasProperties classes (and, for the latter, Unions) in their types", "why_tests_cant": "the keyword is private and used by HasUID.deserialize only; inputs, classes and the listeners and links around the instance are unbounded", "anchors": ["properties/base/base.py:HasProperties.deserialize", "properties/extras/uid.py:HasUID.deserialize"]}
{"id": "C75", "title": "The arguments of links", "statement": "A call of directional_link whose arguments fit its parameters, with two pairs of an instance and a name and a transform that is None, or callable with one positional parameter if its code is known, creates the link of C34 and C73. Anything else than such pairs, a name that the instance does not have, the same item twice or another transform raises ValueError, arguments that do not fit raise TypeError, and nothing changes. link takes two or more items and passes update_now and change_only on to the links it makes; fewer items or a transform raise ValueError, other keywords TypeError, and nothing changes. Without update_now it succeeds exactly if all items are such pairs and none is given twice, and raises ValueError otherwise. Violated: the check of the transform counts the parameters in its code, so bound methods of one argument and functions with defaults or only *args are refused, and bound methods without argument and functions that need a keyword are accepted.", "quantifier": "all argument lists, keyword dictionaries, values, items, classes and worlds; user code is arbitrary", "why_tests_cant": "combinations of values, of positional and keyword arguments and of the places of a wrong item among any number of items", "anchors": ["properties/link.py:directional_link.__init__", "properties/link.py:directional_link._validate", "properties/link.py:directional_link.transform", "properties/link.py:link.__init__"]}
{"id": "C76", "title": "Numbers, colours and uuids given as text", "statement": "Integer(cast=True) accepts a text exactly if it is a decimal literal as int() reads it (white space around it, an optional sign, digits with single underscores between them) with a value within the bounds, and returns that value; without cast every text is a ValidationError. A Color text that is neither a name nor 'random' is accepted exactly if, after its leading # signs, it is six characters whose three pairs, or three characters each of which taken twice, are literals of int(text, 16) that are not negative; the result has these values, all below 256, and every other value is a ValidationError. Uuid.from_json accepts a text exactly if, without urn:, uuid:, braces at its ends and dashes, it has 32 characters that are a literal of int(text, 16) which is not negative; other texts are a ValueError. So texts such as '-0 f+1' are colours and ' 0x_...' are uuids although they are not hexadecimal.", "quantifier": "all texts, bounds and bases", "why_tests_cant": "the accepted texts are an infinite language with corner cases (underscores, signs, white space and prefixes inside pairs of characters) that examples do not delimit", "anchors": ["properties/basic.py:Integer.validate", "properties/basic.py:Color.validate", "properties/basic.py:Uuid.from_json"]}
{"id": "C77", "title": "The change dictionary is shared, but cannot redirect or alter what is stored", "statement": "During an assignment all listeners get the same dictionary and may do anything to it. If they do no more than replace 'value', every listener is told the name, the former value and the mode, and the value that its predecessor left (in any phase), and what the validators leave is what is stored. Whatever they do: exactly the listeners of the name are called, mode by mode and in order (those for changes all or none, unless one raises), the first one of each mode is told the true name, former value and mode, and what is stored is the 'value' that the validators leave, under the name of the property, or nothing; nothing observers do to the dictionary, nor whether they raise, changes that. A validator that removes 'value' makes the assignment raise KeyError, with nothing stored. validate() compares a stored value with what the validators make of it and stores nothing; it passes over unset properties. But a listener after another one of the same mode can be told another name, another former value and a value that was never stored.", "quantifier": "all listeners, as arbitrary functions on the dictionary and on the stored values; all values, names, comparisons and disabled listener types", "why_tests_cant": "all combinations of listeners that edit a shared dictionary", "anchors": ["properties/base/base.py:HasProperties._notify", "properties/base/base.py:HasProperties._set", "properties/base/base.py:HasProperties._validate_props", "properties/handlers.py:_get_listeners"]}
{"id": "C78", "title": "An overridden error hook cannot hide errors of its instance", "statement": "Whatever _error_hook does, validate() (outside of a validation of the same instance, where it returns True at once) calls all class validators in order unless one raises an exception that is neither a ValidationError nor a ValueError, KeyError, TypeError or AttributeError, which it lets through. If error tuples were collected, it calls the hook once with them and then raises: what the hook raised, otherwise a ValidationError with the tuples as the hook left them and a text that lists their messages; if none were, it raises the first other exception or returns True, without calling the hook. The guards are taken down in every case. The same holds for the constructor and its keywords, where unknown and dynamic keywords end it at once. A single ValidationError of an instance calls the hook with its tuple, unless the instance is being validated or constructed. But a hook that empties its list hides the errors from an enclosing validation, which then returns True.", "quantifier": "all hooks, as arbitrary functions on the list and the state; all class validators and keywords", "why_tests_cant": "all hooks that change the list they share with the error", "anchors": ["properties/base/base.py:HasProperties.validate", "properties/base/base.py:HasProperties.__init__", "properties/utils.py:ValidationError.__init__"]}
{"id": "C79", "title": "StringChoice.choices keeps the caller's dictionary", "statement": "A StringChoice is made, or its choices set, exactly if the list, tuple, set or dictionary given holds strings (as values strings or collections of strings) without collisions up to case; otherwise the choices stay as they were. The dictionary given becomes the dictionary of the property: its values are replaced by lists, in place, even if the choices are refused, and no other dictionary is changed. As long as nothing is assigned to the options of the property or in this dictionary, whatever other properties share it, validation of a string gives a choice exactly if the string names it or one of its synonyms, and raises nothing but the ValidationError. But the caller may later put into the dictionary what the setter refuses: then a string names another choice, or validation raises AttributeError.", "quantifier": "all dictionaries, and all sequences of definitions of properties, assignments of options and changes of dictionaries", "why_tests_cant": "all histories of dictionaries shared by any number of properties and their caller", "anchors": ["properties/basic.py:StringChoice.choices", "properties/basic.py:StringChoice.validate"]}
{"id": "C80", "title": "Direction names keep their meaning", "statement": "As long as the lists of VECTOR_DIRECTIONS are as at the import, a string assigned to a Vector3 or Vector2 stands for the axis it names (up to case; without Z, -Z, UP and DOWN in two dimensions) and every other string is an error, and so do the strings in a list assigned to a Vector3Array or Vector2Array, whose other items stand for themselves. The library never changes these lists. It gives none of them to the caller except by Vector3Array, which puts them into the caller's list in place of the names, where Vector2Array puts new lists. So without assignments of lists to Vector3Arrays, names keep their meaning whatever the caller does to the lists it has; but after v = ['x'] was assigned to one, v[0][0] = 5 changes what 'x' means for all vectors.", "quantifier": "all sequences of assignments and of changes the caller makes to lists it has", "why_tests_cant": "all sequences of assignments and changes; the lists of the module are shared by all properties and callers", "anchors": ["properties/math.py:Vector3Array.validate", "properties/math.py:Vector2Array.validate", "properties/math.py:VECTOR_DIRECTIONS"]}
{"id": "C81", "title": "Reading operations change nothing", "statement": "Reading an attribute, serialize and equal, of instances in any graph and at any depth, change nothing: there are the same instances with the same stored values, listeners, flags and attributes, the same links and disabled modes, and no listener is called and nothing written, also when the operation raises. This holds if no Union has an alternative with a HasProperties class and there are no dynamic properties; with dynamic properties whose getters only read and give values without HasProperties classes it holds too, except that error hooks may be called for invalid values. It does not hold for a Union with a HasProperties class: serialize validates the stored value with each alternative again, so an instance of the class may be made and its listeners be called with it.", "quantifier": "all class tables without such Unions, all instance graphs, stored values, callbacks and operations, any depth", "why_tests_cant": "all graphs of instances, cyclic ones included, and all classes; a hidden write shows only in the instances a test looks at", "anchors": ["properties/base/base.py:HasProperties.serialize", "properties/base/base.py:HasProperties.equal", "properties/base/union.py:Union.serialize"]}
{"id": "C82", "title": "Operators of observable containers", "statement": "Operators (&, |, -, ^, +, *) and copying methods (copy, union, ...) of the observable containers of properties with observe_mutations=True give what those of the builtin container with the same items give, or raise the same error, in expressions of any size, as long as no operand of another class to the right of an observable one has a reflected method for it. Whether a result is observable depends on the classes of the operands only: it is if the left operand is, or the right one and the class has the reflected method (so not [1] + x.l); and no result of an operator or method is attached to an instance. It is not true that the class behaves like the builtin one for other operands: their reflected methods are not called, x.s | d.keys() and x.l + numpy.array(...) raise TypeError.", "quantifier": "all expressions, operands, operators, and behaviours of builtin and other classes", "why_tests_cant": "all expressions and all other classes an operand may have; the order in which Python tries methods depends on the classes of both operands", "anchors": ["properties/base/containers.py:properties_operator", "properties/base/containers.py:add_properties_callbacks", "properties/base/containers.py:observable_copy"]}
{"id": "C83", "title": "Stored containers are not shared", "statement": "Containers stored in instances are not shared. An accepted container is copied at every level at which the property has a container property, into new containers, all different, that hold the converted items with the same keys and order; otherwise the value is refused. So after any sequence of making and changing containers, assigning, deleting, serializing, deserializing and calling methods of containers with observe_mutations, every container that makes up the value of a container property was made for that property (of that instance), and nothing but an action on the property or a change of one of its own containers changes what is seen of the value; serialize gives new containers that are part of no property. This is as long as no containers of others are put into stored ones by changing these directly (as with x.l.append(other) without observe_mutations, or on a list within x.l). It is not true for Property, alone or in a container: the container itself is stored, is the same for all instances that have it as default, and is what serialize gives.", "quantifier": "all property types, values, heaps of containers and sequences of actions", "why_tests_cant": "all nestings and aliasings of containers and all sequences of actions; sharing is only seen after a later change somewhere else", "anchors": ["properties/base/containers.py:Tuple.validate", "properties/base/containers.py:Dictionary.validate", "properties/base/containers.py:Tuple.serialize", "properties/base/containers.py:Tuple.deserialize"]}
