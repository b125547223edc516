{"id": "C01", "title": "Round trip of data graphs", "statement": "decode(encode(x)) with default options yields an object graph isomorphic to the one rooted at x: same types, same atoms, same element/attribute order, for None/bool/int/float/str/bytes/bytearray/list/tuple/set/dict with string keys/importable classes and functions/plain instances, nested and shared in any way, cyclic or not. Exceptions: identity of sets, tuples and bytearrays is not kept (C43); further conditions on single kinds of object are those of C29-C36, C42.", "quantifier": "every finite object graph built from those kinds of object, of any size, depth, sharing pattern and cyclicity", "why_tests_cant": "The set of object graphs is infinite and cycles/sharing interact with reference numbering; tests sample a handful of shapes.", "anchors": ["jsonpickle/pickler.py: Pickler._flatten_impl, _get_flattener, _flatten_dict_obj, _ref_obj_instance", "jsonpickle/unpickler.py: Unpickler._restore_tags, _restore_list, _restore_dict, _restore_object_instance, _restore_id"]}
{"id": "C02", "title": "Aliasing is preserved exactly", "statement": "Two positions of decode(encode(x)) hold the identical (is) list, dict or instance if and only if the corresponding positions of x do: no object is duplicated, no two objects are merged, cycles stay cycles.", "quantifier": "every pair of positions in every supported object graph", "why_tests_cant": "The claim is about all pairs of positions in all graphs; a wrong reference number only shows for particular traversal orders.", "anchors": ["jsonpickle/pickler.py: Pickler._mkref, _log_ref, _getref", "jsonpickle/unpickler.py: Unpickler._mkref, _swapref, _restore_id"]}
{"id": "C03", "title": "encode terminates on every finite graph", "statement": "With default options encode(x) performs finitely many steps for every finite object graph, including graphs whose cycles pass through lists, dicts, instances, tuples and sets. Exceptions: with unpicklable=False a cyclic list is followed for ever.", "quantifier": "every finite object graph (any object kinds the model covers, including __reduce__/__getstate__ results), user code that returns, handlers that do not reset the pickler", "why_tests_cant": "Non-termination is a statement about unboundedly many steps on arbitrary cyclic graphs.", "anchors": ["jsonpickle/pickler.py: Pickler._flatten, _mkref, _in_cycle"]}
{"id": "C04", "title": "decode terminates on every input", "statement": "decode(text) performs finitely many steps for every input text and every option setting: it returns a value or raises, it never loops.", "quantifier": "every input string, every JSON document, every option combination, user code that returns, handlers that restore only parts of their document", "why_tests_cant": "Adversarial documents are unbounded (nested tags, references, json:// keys containing further documents).", "anchors": ["jsonpickle/unpickler.py: decode, Unpickler._restore, _restore_pickled_key, _swap_proxies"]}
{"id": "C05", "title": "Binary data round trips", "statement": "bytes and bytearray values decode to exactly the same byte sequence, with base64 (default) and with use_base85=True. The texts in between are the base64 of RFC 4648 under py/b64 and the base85 of Python (the alphabet of RFC 1924, groups of four bytes, padding cut off) under py/b85, so that other programs can read them.", "quantifier": "every byte string of every length (all residues mod 3 and mod 4)", "why_tests_cant": "Infinitely many byte strings; padding/truncation logic depends on the length residue and on carries.", "anchors": ["jsonpickle/util.py: b64encode, b64decode, b85encode, b85decode", "jsonpickle/pickler.py: Pickler._flatten_bytestring", "jsonpickle/unpickler.py: _restore_base64, _restore_base85, _restore_bytearray"]}
{"id": "C06", "title": "Malformed binary payloads never raise", "statement": "Decoding {'py/b64': p} or {'py/b85': p} returns bytes for every JSON value p: a malformed payload yields b'' (or the bytes that could be decoded), never an exception.", "quantifier": "every JSON payload value", "why_tests_cant": "All malformed payloads cannot be enumerated.", "anchors": ["jsonpickle/util.py: b64decode, b85decode", "jsonpickle/unpickler.py: _restore_base64, _restore_base85"]}
{"id": "C07", "title": "Plain JSON decodes to itself", "statement": "A JSON document in which no object uses a jsonpickle tag as a key decodes to exactly the corresponding dict/list/atom tree, and no import, call, eval or class lookup happens.", "quantifier": "every tag-free JSON document, every option setting with keys=False (and keys=True if no key starts with json://)", "why_tests_cant": "Universal over documents and about the absence of effects.", "anchors": ["jsonpickle/unpickler.py: Unpickler._restore_tags, _restore_dict, _restore_list"]}
{"id": "C08", "title": "safe=True never evaluates code strings", "statement": "With safe=True (the default) no input document makes decode call eval(); with safe=False exactly the py/repr documents do. Documents without py/repr decode alike either way. safe=True does NOT prevent calling importable callables.", "quantifier": "every input document and every history of calls on one Unpickler", "why_tests_cant": "Security claims quantify over all adversarial inputs.", "anchors": ["jsonpickle/unpickler.py: loadrepr, _restore_repr, _restore_repr_safe, _restore_tags"]}
{"id": "C09", "title": "Reusing a Pickler/Unpickler is history independent", "statement": "Pickler.flatten(x) and Unpickler.restore(d) with reset=True give the same result as on a freshly constructed object, whatever calls came before, including calls that raised part-way.", "quantifier": "every history of earlier calls, every crash point inside them", "why_tests_cant": "Histories and exception points are unbounded.", "anchors": ["jsonpickle/pickler.py: Pickler.reset, _pop, flatten", "jsonpickle/unpickler.py: Unpickler.reset, restore"]}
{"id": "C10", "title": "Output does not depend on object addresses", "statement": "Two isomorphic object graphs encode to the identical text; consequently encode(decode(encode(x))) == encode(x). Exceptions: an address shows through the default repr of a dict key (keys=False) or of what max_depth cuts off; equal sets may iterate in different orders; with keys=True an escaped string key moves behind the others.", "quantifier": "every pair of isomorphic graphs whose user code (and repr, where it is written) answers alike; every graph of C01 and its decoded copy", "why_tests_cant": "Addresses (id()) are chosen by the allocator; the claim is over all allocations.", "anchors": ["jsonpickle/pickler.py: Pickler._mkref, _getref, _flatten_dict_obj"]}
{"id": "C11", "title": "References point backwards to a definition", "statement": "Every {'py/id': n} emitted for a supported graph satisfies 0 <= n < number of reference-numbered objects written before it in document order.", "quantifier": "every graph of C01 without custom handlers, every emitted reference", "why_tests_cant": "Quantifies over all graphs and all references in them.", "anchors": ["jsonpickle/pickler.py: Pickler._getref, _log_ref"]}
{"id": "C12", "title": "unpicklable=False gives plain JSON", "statement": "encode(x, unpicklable=False) on graphs of atoms, lists, tuples, sets, dicts and plain instances contains no jsonpickle tag key; bytes are the exception. Exceptions: classes and the arguments of __getnewargs__ still give tags.", "quantifier": "every such graph on which encode terminates", "why_tests_cant": "Universal over graphs.", "anchors": ["jsonpickle/pickler.py: Pickler._ref_obj_instance, _get_flattener, _flatten_obj_instance"]}
{"id": "C13", "title": "make_refs=False never emits references and breaks cycles", "statement": "encode(x, make_refs=False) terminates on every finite graph and its output contains no py/id object. Exceptions: an enum member whose value is a set containing it is followed for ever.", "quantifier": "every finite graph without enum members (termination), handlers and user code that write no py/id themselves", "why_tests_cant": "Universal over cyclic graphs; termination claim.", "anchors": ["jsonpickle/pickler.py: _in_cycle, Pickler._mkref, _flatten"]}
{"id": "C14", "title": "max_depth bounds recursion", "statement": "encode(x, max_depth=n) never descends more than n levels: the nesting depth of the produced JSON is bounded by a fixed function of n, for any graph, and encoding terminates. Exceptions: enum members are not cut; an AttributeError of __repr__ inside an object with slots leaves the depth wrong; with make_refs=False documents already made are reused at any depth.", "quantifier": "every graph without enum members, every n, references on, exceptions of __repr__ contained", "why_tests_cant": "Universal over graphs and bounds.", "anchors": ["jsonpickle/pickler.py: Pickler._max_reached, _push, _pop, _flatten_obj"]}
{"id": "C15", "title": "max_iter bounds iterator consumption", "statement": "Encoding an iterator with max_iter=n consumes and emits exactly min(n, available) items, in order, also for infinite iterators.", "quantifier": "every iterator (finite or infinite) without protocols of its own, every n", "why_tests_cant": "Infinite iterators and all n.", "anchors": ["jsonpickle/pickler.py: Pickler._flatten_obj_instance (islice)"]}
{"id": "C16", "title": "keys=True preserves non-string keys", "statement": "With keys=True on both sides dicts with int/float/bool/None/tuple/instance keys round trip, including keys that share objects with values elsewhere in the graph. Exceptions: two different keys with the same document become one.", "quantifier": "every supported graph whose dicts have arbitrary supported hashable keys", "why_tests_cant": "The escaped key text is itself a document sharing the reference numbering; two-phase ordering must agree for all dicts.", "anchors": ["jsonpickle/pickler.py: Pickler._escape_key, _flatten_string_key_value_pair, _flatten_non_string_key_value_pair", "jsonpickle/unpickler.py: _restore_pickled_key, _restore_dict"]}
{"id": "C17", "title": "keys=False key coercion", "statement": "With keys=False string keys are written verbatim, None as 'null', other keys as repr() (numbers as JSON spells them with numeric_keys=True); no entry with a picklable value and unreserved key is lost as long as the coerced keys are distinct. Exceptions: keys that become the same string lose entries.", "quantifier": "every dict", "why_tests_cant": "Key collisions occur for particular combinations of keys only.", "anchors": ["jsonpickle/pickler.py: Pickler._flatten_key_value_pair"]}
{"id": "C18", "title": "keys=True protects user keys that look like tags", "statement": "With keys=True a dict whose string keys collide with the wire format (a tag name or the json:// prefix) decodes to the same dict. Exceptions: names of the tags for bytes; and an escaped key with a mutable value before an unescaped key, which disturbs references.", "quantifier": "every dict with string keys", "why_tests_cant": "Any tag missing from the protected list breaks it; needs all keys.", "anchors": ["jsonpickle/pickler.py: Pickler._flatten_string_key_value_pair", "jsonpickle/tags.py: RESERVED"]}
{"id": "C19", "title": "Unpicklable values", "statement": "A lambda or other unpicklable function is replaced by null inside a list, and dropped (with its key) from a dict or instance; named module functions are kept.", "quantifier": "every dict/list and position", "why_tests_cant": "Universal over containers.", "anchors": ["jsonpickle/util.py: _is_picklable, _is_module_function", "jsonpickle/pickler.py: _get_flattener, _flatten_key_value_pair"]}
{"id": "C20", "title": "fail_safe contains exceptions", "statement": "With fail_safe set to a function that does not raise, no ordinary exception raised by user code (__getstate__, __reduce__, handlers, repr) escapes from encode; KeyboardInterrupt and SystemExit still do; the failing object is replaced by fail_safe(e) and the depth bookkeeping stays balanced.", "quantifier": "every graph and every set of failing objects", "why_tests_cant": "All crash points inside all graphs.", "anchors": ["jsonpickle/pickler.py: Pickler._flatten_obj"]}
{"id": "C21", "title": "fail_safe does not disturb other references", "statement": "Replacing a failing object by fail_safe(e) leaves the rest of the document decodable with correct references. Exceptions: the replaced object keeps its reference number in the text only, so references to objects numbered after it go wrong; without such references the rest is right.", "quantifier": "every graph of lists, dicts with string keys, tuples, sets, classes, plain instances and replaced objects", "why_tests_cant": "Only shows when a crash happens after some inner object was numbered.", "anchors": ["jsonpickle/pickler.py: Pickler._flatten_obj, _log_ref"]}
{"id": "C22", "title": "on_missing policy", "statement": "When a class cannot be found: 'ignore' returns the raw JSON dict, 'warn' warns and returns it, 'error' raises ClassNotFoundError, a function is called with the class name; policy strings are case-insensitive.", "quantifier": "every document naming a missing class, every policy", "why_tests_cant": "Universal over class names/documents/policies.", "anchors": ["jsonpickle/unpickler.py: decode, _process_missing, _restore_object"]}
{"id": "C23", "title": "classes= takes precedence over imports", "statement": "A class supplied via classes= (single, sequence, nested sequences, dict) under its importable name is used for decoding that name without importing anything; later registrations win.", "quantifier": "every classes argument and class name", "why_tests_cant": "Arbitrarily nested collections.", "anchors": ["jsonpickle/unpickler.py: Unpickler.register_classes", "jsonpickle/util.py: loadclass"]}
{"id": "C24", "title": "Names resolve back to the object they name", "statement": "loadclass(importable_name(c)) is c for every importable class or function c (nested classes included), and resolving a name only imports dotted prefixes of that name.", "quantifier": "every name and every module/attribute environment", "why_tests_cant": "All import environments and nesting depths.", "anchors": ["jsonpickle/util.py: importable_name, loadclass, translate_module_name, untranslate_module_name"]}
{"id": "C25", "title": "Handler registry behaves like a map", "statement": "After any sequence of register/unregister calls, lookup by class or by name returns the handler most recently registered and not since unregistered; base=True handlers apply to all subclasses and a direct registration wins over a base one. Exceptions: unregistering one of two classes with the same importable name affects the other.", "quantifier": "every sequence of registry operations", "why_tests_cant": "Histories are unbounded.", "anchors": ["jsonpickle/handlers.py: Registry.register, unregister, get"]}
{"id": "C26", "title": "Backend fallthrough order", "statement": "encode/decode use the first backend (in preference order) that succeeds; if all fail the last backend's exception is raised; with fallthrough disabled only the preferred backend is tried; decoding falls through only on the backend's declared decode error.", "quantifier": "every list of backends and every per-backend outcome", "why_tests_cant": "All combinations of outcomes and orders.", "anchors": ["jsonpickle/backend.py: JSONBackend.encode, decode, enable_fallthrough, set_preferred_backend"]}
{"id": "C27", "title": "Backend bookkeeping is consistent", "statement": "After any sequence of load/remove/set_preferred/options calls: a usable backend exists iff one is loaded, every listed backend has an encoder and a decoder, the preferred backend is first, removal forgets the backend completely. Exceptions: a backend loaded twice is listed twice, and removing it once leaves it in the list.", "quantifier": "every sequence of backend-management calls", "why_tests_cant": "Histories are unbounded; duplicate loads are a corner case.", "anchors": ["jsonpickle/backend.py: JSONBackend.load_backend, remove_backend, set_preferred_backend, _verify"]}
{"id": "C28", "title": "Encoder/decoder options", "statement": "encode passes exactly the options last set for the backend, with indent/separators overriding them for that call only; stored options are never modified by encode or decode.", "quantifier": "every sequence of set_*_options and encode/decode calls", "why_tests_cant": "Histories; aliasing of the stored kwargs dict.", "anchors": ["jsonpickle/backend.py: backend_encode, backend_decode, set_encoder_options, set_decoder_options"]}
{"id": "C29", "title": "__getstate__/__setstate__ protocol", "statement": "For a class with __getstate__ and __setstate__, decode calls __setstate__ on a new instance exactly once with an object isomorphic to what __getstate__ returned (falsy states excepted); without __setstate__ a dict state becomes the instance attributes, and a pair of a dict (or None) and a dict becomes the attributes and the slots. Exceptions: without __setstate__ a state that is neither a dict nor such a pair takes the place of the object.", "quantifier": "every graph of C01, every state object graph", "why_tests_cant": "Arbitrary states.", "anchors": ["jsonpickle/pickler.py: Pickler._getstate, _flatten_obj_instance", "jsonpickle/unpickler.py: _restore_state, _restore_object_instance"]}
{"id": "C30", "title": "__reduce__ protocol", "statement": "For an object whose __reduce__ returns (f, args, state, listitems, dictitems), decode calls f exactly once with arguments isomorphic to args, then applies state, list items and dict items in that order.", "quantifier": "every graph of C01; every reduce value whose function is a class or an importable function, whose list and dict items are tuples, and whose parts do not refer back to the object itself", "why_tests_cant": "Arbitrary argument graphs.", "anchors": ["jsonpickle/pickler.py: Pickler._reduce, _flatten_obj_instance", "jsonpickle/unpickler.py: _restore_reduce"]}
{"id": "C31", "title": "__getnewargs__/__getnewargs_ex__/__getinitargs__ protocol", "statement": "decode calls cls.__new__ with arguments isomorphic to those returned by __getnewargs__ (or __getnewargs_ex__, which takes precedence); namedtuples and tuple subclasses round trip. Exceptions: when __getnewargs_ex__ gives no keyword arguments nothing is passed; when __getnewargs__ and __getinitargs__ are both defined references go wrong.", "quantifier": "every argument graph not referring back to the object itself", "why_tests_cant": "Arbitrary argument graphs.", "anchors": ["jsonpickle/pickler.py: _flatten_obj_instance", "jsonpickle/unpickler.py: getargs, _restore_object_instance"]}
{"id": "C32", "title": "default_factory", "statement": "A defaultdict whose factory is a type round trips with the same factory and items; a non-type factory does not disturb references. Exceptions: a factory that is not a type does disturb references.", "quantifier": "every defaultdict content graph", "why_tests_cant": "Order of numbering differs between encode and decode only when a non-type factory and shared values coexist.", "anchors": ["jsonpickle/pickler.py: Pickler._flatten_dict_obj", "jsonpickle/unpickler.py: _loadfactory, _restore_object_instance", "jsonpickle/handlers.py: CloneFactory"]}
{"id": "C33", "title": "Objects encoded as null do not disturb references", "statement": "When an object is encoded as null (file objects, handlers returning None, objects that cannot be pickled) later references still resolve to the right objects. Exceptions: the object encoded as null takes a reference number in the encoder only, so references to objects numbered after it go wrong; references to objects before it are right.", "quantifier": "every graph of lists, dicts with string keys, tuples, sets, classes, plain instances and objects encoded as null", "why_tests_cant": "Depends on what is referenced later.", "anchors": ["jsonpickle/pickler.py: _ref_obj_instance, _flatten_obj_instance", "jsonpickle/handlers.py: TextIOHandler"]}
{"id": "C34", "title": "Subclasses of dict, list and set round trip", "statement": "Instances of importable subclasses of dict/list/set keep class, contents (in order) and instance attributes. Exceptions: a dict subclass whose items equal its attributes loses the attributes.", "quantifier": "every content and attribute graph", "why_tests_cant": "Arbitrary contents, sharing between items and attributes.", "anchors": ["jsonpickle/pickler.py: _flatten_dict_obj, _flatten_sequence_obj", "jsonpickle/unpickler.py: _restore_from_dict, _restore_object_instance_variables"]}
{"id": "C35", "title": "__slots__ instances round trip", "statement": "Instances of classes with __slots__ keep the values of all set slots. Exceptions: slots of instances that also have a __dict__, private slots of a base class, and slots with names like __x__ are lost.", "quantifier": "every slot list and value graph", "why_tests_cant": "Arbitrary slot hierarchies.", "anchors": ["jsonpickle/pickler.py: _flatten_newstyle_with_slots, _flatten_obj_attrs", "jsonpickle/unpickler.py: _restore_from_dict"]}
{"id": "C36", "title": "_jsonpickle_exclude is honoured", "statement": "An attribute named in _jsonpickle_exclude never appears in the object's encoded attributes (plain, slots and dict-state objects), and all other attributes are unaffected. Exceptions: excluded names are written in list and set subclasses and in states that are a pair of dicts; in dict subclasses items under such a key are lost.", "quantifier": "every attribute set and exclude set", "why_tests_cant": "Universal.", "anchors": ["jsonpickle/pickler.py: _flatten_obj_instance, _flatten_obj_attrs", "jsonpickle/util.py: items"]}
{"id": "C37", "title": "handler_context delivery", "statement": "A handler method receives handler_context exactly when one was supplied (not None) and its signature has a parameter of that name that can be passed by keyword; otherwise it is called without it.", "quantifier": "every signature and context value", "why_tests_cant": "All signatures.", "anchors": ["jsonpickle/handlers.py: handler_accepts_handler_context", "jsonpickle/pickler.py: _call_handler_flatten", "jsonpickle/unpickler.py: _call_handler_restore"]}
{"id": "C38", "title": "Object identity numbers are never confused by id() reuse", "statement": "During one encode call the reference table never confuses two distinct objects even though CPython may reuse the address of a freed temporary. Exceptions: the table of documents already made (make_refs=False or unpicklable=False) does confuse temporary bytes objects.", "quantifier": "every allocation/deallocation schedule", "why_tests_cant": "Depends on the allocator's schedule.", "anchors": ["jsonpickle/pickler.py: Pickler._seen, _log_ref, _flattened"]}
{"id": "C39", "title": "JSON text round trip", "statement": "The text produced for a flattened document parses back to exactly that document. Exceptions: two characters that are the halves of a surrogate pair become one.", "quantifier": "every JSON document (strings over all code points, arbitrarily large ints, nesting)", "why_tests_cant": "Infinite; escaping corner cases.", "anchors": ["jsonpickle/backend.py: JSONBackend.encode, decode"]}
{"id": "C40", "title": "Malformed references degrade to None", "statement": "A {'py/id': v} inside a list or dict whose v is out of range or of the wrong type is restored as None, never as an unrelated object and never raises. Exceptions: with keys=True inside a dict, at the top of a document, and for negative numbers inside the range.", "quantifier": "every v, every nesting of lists and dicts", "why_tests_cant": "All malformed documents.", "anchors": ["jsonpickle/unpickler.py: _restore_id, _IDProxy, _swap_proxies"]}
{"id": "C41", "title": "No internal placeholder leaks", "statement": "The object graph returned by decode never contains jsonpickle's internal placeholder objects. Exceptions: constructor arguments that lead back to the object through a tuple; with keys=True a dict in a reduce state that leads back to the object.", "quantifier": "every document produced by encode", "why_tests_cant": "Only specific cyclic shapes leak.", "anchors": ["jsonpickle/unpickler.py: _Proxy, _IDProxy, _swap_proxies, _restore_tuple, _restore_from_dict"]}
{"id": "C42", "title": "Attribute names are preserved", "statement": "Every instance attribute is restored under the name it had. Exceptions: names that begin with two underscores, and the name default_factory.", "quantifier": "every attribute name", "why_tests_cant": "Special-cased names (dunder prefix, default_factory, tag names).", "anchors": ["jsonpickle/unpickler.py: _restore_from_dict, _loadfactory", "jsonpickle/pickler.py: _flatten_key_value_pair"]}
{"id": "C43", "title": "Identity of sets, tuples and bytearrays", "statement": "Sets, tuples and bytearrays come back with copies of their contents at every place, in any sharing; but a set or bytearray shared between two places is two objects after decoding (shown by a theorem named ..._refuted).", "quantifier": "every graph of C01 containing sets, tuples and bytearrays, shared or not", "why_tests_cant": "Sharing patterns.", "anchors": ["jsonpickle/pickler.py: _get_flattener, _flatten_impl"]}
{"id": "C44", "title": "Classes, functions and modules round trip", "statement": "An importable class, function or module inside a graph decodes to the identical object.", "quantifier": "every importable class/function/module and environment", "why_tests_cant": "All environments.", "anchors": ["jsonpickle/pickler.py: _mktyperef, _flatten_function", "jsonpickle/unpickler.py: _restore_type, _restore_function, _restore_module, _loadmodule"]}
{"id": "C45", "title": "Built-in handlers", "statement": "uuid, datetime/date/time, array, lock and compiled regex objects round trip through their handlers; queues come back empty. Exceptions: compiled bytes patterns cannot be encoded.", "quantifier": "every value of those types", "why_tests_cant": "Infinite value spaces.", "anchors": ["jsonpickle/handlers.py: UUIDHandler, DatetimeHandler, ArrayHandler, RegexHandler, LockHandler, QueueHandler"]}
{"id": "C46", "title": "Pandas run-length and payload helpers", "statement": "rle_decode(rle_encode(l)) == l, runs are maximal and positive; restore_pandas(flatten_pandas(buf)) gives back buf and meta. Exceptions: without a compression module a payload over the threshold cannot be encoded.", "quantifier": "every list, every buffer, every threshold", "why_tests_cant": "Infinite.", "anchors": ["jsonpickle/ext/pandas.py: rle_encode, rle_decode, PandasProcessor"]}
{"id": "C47", "title": "dtype tags are unambiguous", "statement": "get_smallest_unique_substrings assigns distinct tags to distinct dtype names, so REVERSE_TYPE_MAP inverts TYPE_MAP. Exceptions: a name that is a shortened form of another can share its tag.", "quantifier": "every list of distinct dtype names", "why_tests_cant": "Depends on the whole list and its order.", "anchors": ["jsonpickle/tags_pd.py: get_smallest_unique_substrings, split_letters_numbers_brackets"]}
{"id": "C48", "title": "encode does not modify the encoded objects", "statement": "encode(x) leaves every object reachable from x unchanged (iterators excepted). Exceptions: handle_readonly and sort_keys do change objects.", "quantifier": "every graph and option setting", "why_tests_cant": "Options interact with attribute writes.", "anchors": ["jsonpickle/pickler.py: _sort_attrs, _flatten_key_value_pair (handle_readonly)", "jsonpickle/util.py: _is_readonly"]}
{"id": "C49", "title": "A missing class does not disturb other references", "statement": "When one object's class cannot be found and on_missing='ignore', the rest of the document still decodes with correct references. Exceptions: objects inside the dict that stands for an absent object take no number, and an object whose class is there but makes no instance takes two, so references to objects after them go wrong; absent objects with scalar attributes do no harm.", "quantifier": "every graph of lists, dicts with string keys, tuples, sets, classes and plain instances, some of absent classes", "why_tests_cant": "Depends on what is referenced later.", "anchors": ["jsonpickle/unpickler.py: _restore_object, _mkref"]}
{"id": "C50", "title": "Iterators", "statement": "An iterator decodes to an iterator yielding isomorphic items in the same order and occupies exactly one reference number on both sides. Exceptions: a second reference to the same iterator gives the list behind it.", "quantifier": "every item sequence that does not lead back to the iterator, iterators without protocols of their own", "why_tests_cant": "Arbitrary items and sharing.", "anchors": ["jsonpickle/pickler.py: _flatten_obj_instance", "jsonpickle/unpickler.py: _restore_iterator"]}
{"id": "C51", "title": "Reduce and argument methods are found as pickle finds them", "statement": "For an instance that is not a container, encode runs the reduce method that pickle's obj.__reduce_ex__(2) would run (the class's or a base's __reduce_ex__, or an overriding __reduce__), and none when only object's default exists; __getnewargs__, __getnewargs_ex__ and __getinitargs__ are honoured when the class or a base defines them as any kind of method. Exceptions: list-like classes are never asked; a function stored on the instance under the name is taken for the method.", "quantifier": "every class hierarchy and method resolution order", "why_tests_cant": "Hierarchies are unbounded: mixins, overriding, built-in bases, order of bases.", "anchors": ["jsonpickle/util.py: has_reduce, has_method, _is_reducible, in_dict, in_slots", "jsonpickle/pickler.py: Pickler._reduce"]}
{"id": "C52", "title": "numpy arrays and views", "statement": "With the numpy handlers registered, an array decodes to an array of the same shape, items, writeability and (in binary form) byte order, for every size threshold, compression and memory order; a view of an array decodes to the same window on the decoded base, so that it shows what the original would show after any later writes. Exceptions: 0-d arrays in text form get one axis; views of large Fortran-order bases, of large bases in foreign byte order, and native views of single-byte bases show wrong items.", "quantifier": "every shape, memory order, item size, byte order, offset and strides inside the base, threshold and lossless compression", "why_tests_cant": "Index arithmetic over arbitrary dimensions and strides; combinations of order, byte order and storage form.", "anchors": ["jsonpickle/ext/numpy.py: NumpyNDArrayHandler, NumpyNDArrayHandlerBinary, NumpyNDArrayHandlerView, get_byteorder"]}
{"id": "C53", "title": "Plain data is written as plain JSON", "statement": "encode(x) of a tree of dicts with string keys, lists and atoms is json.dumps(x), whatever options are set, whatever was encoded before and whatever handlers are registered; hence encode(decode(text)) == json.dumps(json.loads(text)) for documents without tags. Exceptions: with handle_readonly=True a dict loses keys such as 'items'.", "quantifier": "every tree, every option setting, every state of the pickler", "why_tests_cant": "Unbounded trees; interaction of all options (cache, depth counter, reference table).", "anchors": ["jsonpickle/pickler.py: Pickler._flatten, _flatten_impl, _flatten_obj, _flatten_dict_obj, _list_recurse"]}
{"id": "C54", "title": "Errors of user code reach the caller of decode", "statement": "If a custom handler, a constructor, __setstate__, a state setter or the on_missing callback raises an exception while decoding, decode raises that exception and calls nothing more. Exceptions: a TypeError inside a tuple, set, iterator or reduce list, and an AttributeError of __setstate__ in the reduce path, are swallowed.", "quantifier": "every document, class table, options and place of the failing call", "why_tests_cant": "Every restore function has its own except clauses; the failing call can be at any depth below them.", "anchors": ["jsonpickle/unpickler.py: Unpickler._restore_tuple, _restore_set, _restore_iterator, _restore_reduce, _restore_object_instance, _restore_object"]}
{"id": "C55", "title": "include_properties does not change what is decoded", "statement": "Whatever include_properties is set to, decode(encode(x, include_properties=...)) gives the same result: the property values added to the text are ignored and the references in the text keep their meaning. Exceptions: a property or method of the class whose value is an object takes a reference number that decode does not count, so later references go wrong.", "quantifier": "every graph of C01 of classes with any members with scalar values; every document whose classes are there (keys=False)", "why_tests_cant": "The values of properties are written in the middle of the document and may themselves contain objects and references; sharing around them is unbounded.", "anchors": ["jsonpickle/pickler.py: Pickler._flatten_properties, _flatten_obj_instance", "jsonpickle/unpickler.py: Unpickler._restore_from_dict, _restore_object_instance"]}
{"id": "C56", "title": "Sorted keys keep references right", "statement": "With a JSON backend that sorts keys (set_encoder_options(..., sort_keys=True)) decode(encode(x)) is a copy of x with the same sharing as x: the references in the text still mean the same objects although the text has another order. Exceptions: only the outermost object is sorted before numbers are given out, so references behind an unsorted dict or an unsorted nested object go wrong.", "quantifier": "every graph of C01 whose dicts, and instances other than the outermost, have ascending keys; every plain tree with any keys; every option setting", "why_tests_cant": "References are numbers given out in the order of writing; the sorting is done partly before and partly after them, and sharing is unbounded.", "anchors": ["jsonpickle/pickler.py: encode, Pickler.flatten, Pickler._sort_attrs", "jsonpickle/backend.py: JSONBackend.set_encoder_options, backend_encode", "jsonpickle/unpickler.py: Unpickler._restore_id, _restore_dict, _restore_from_dict"]}
{"id": "C57", "title": "Coerced keys and left-out entries do not disturb references", "statement": "With keys=False (the default) dict keys that are not strings are written as strings, and entries with anonymous functions or under the names of tags are left out; decode(encode(x)) is a copy of x with these strings as keys and without these entries, with the same sharing as x. Exceptions: when two keys of a dict become the same string the value that is lost has taken reference numbers.", "quantifier": "every graph of lists, dicts with any keys, tuples, sets, classes and plain instances", "why_tests_cant": "References are numbers given out in the order of writing; which entries reach the text depends on how the keys are spelled, and the sharing is unbounded.", "anchors": ["jsonpickle/pickler.py: Pickler._flatten_key_value_pair, _flatten_dict_obj, _mkref, _getref", "jsonpickle/unpickler.py: Unpickler._restore_dict, _restore_id"]}
{"id": "C58", "title": "Without references every occurrence is written in full", "statement": "With make_refs=False (and with unpicklable=False) the text of an object graph without cycles has every object in full at every place it occurs, none replaced by a string, null or a reference, however often it is shared; with make_refs=False decode gives back the same data with a separate new object for each occurrence, and the text is the same as with references if there are none. Exceptions: in a graph with a cycle the inner occurrence becomes a string.", "quantifier": "every graph without cycles of lists, dicts with string keys, tuples, sets, classes and plain instances, with any sharing", "why_tests_cant": "An object that was met before must be told from one that is still being written, with a cache in between; the sharing of a graph is unbounded.", "anchors": ["jsonpickle/pickler.py: Pickler._flatten, Pickler._flattened, Pickler._flatten_obj, _mkref, _log_ref, _in_cycle, _ref_obj_instance", "jsonpickle/unpickler.py: Unpickler._restore"]}
{"id": "C59", "title": "Enum members and singletons come back as themselves", "statement": "An object whose __reduce__ gives a class and simple arguments, and for which that call gives an existing object in the decoding process (a member of an enumeration, a singleton), is decoded to that very object at every place, however often it is shared and wherever it is in the graph; the object is not changed, and references to other objects around it stay right. Exceptions: an object whose __reduce__ gives a global name is written as a reference to itself and decoded to something else.", "quantifier": "every object graph of lists, dicts with string keys, tuples, sets, classes and plain instances with any number of such objects at any places", "why_tests_cant": "The decoder gives such an object a number through a placeholder that is swapped for an object that already exists; whether the numbers and identities agree depends on the whole graph before it, which is unbounded.", "anchors": ["jsonpickle/pickler.py: Pickler._flatten_obj_instance (the reduce branch), _reduce, _mkref", "jsonpickle/unpickler.py: Unpickler._restore_reduce, _swapref, _mkref, _restore_id"]}
{"id": "C60", "title": "pandas data frames round trip", "statement": "With the pandas handlers registered, decode(encode(df)) has the labels, the values, the dtypes and the order of the columns of df, its index, and the names of both axes. Exceptions: columns whose dtype is not in the tables, among them all with a capital in the name such as Int64, come back as object; two columns with one label cannot be encoded.", "quantifier": "every data frame: any number of columns of any dtypes, with object columns holding containers or not", "why_tests_cant": "Columns are stored in a dict by label, dtypes as run-length coded tags beside them, containers as nested documents; what comes back depends on all columns together.", "anchors": ["jsonpickle/ext/pandas.py: PandasDfHandler.flatten, restore, PandasProcessor, rle_encode, rle_decode", "jsonpickle/tags_pd.py: TYPE_MAP, REVERSE_TYPE_MAP"]}
{"id": "C61", "title": "pandas indexes keep their names", "statement": "With the pandas handlers registered, an index is decoded with its values, its dtype and its name, and a MultiIndex with its names. Exceptions: a string as name of an index is taken apart into its characters, an index with a number as name cannot be decoded.", "quantifier": "every index with any name", "why_tests_cant": "Names of any type and length; the handler passes them through JSON.", "anchors": ["jsonpickle/ext/pandas.py: PandasIndexHandler.flatten, restore, name_bundler, PandasMultiIndexHandler"]}
{"id": "C62", "title": "dtype tags mean the same in another process", "statement": "A data frame encoded in one process is decoded with the same dtypes in another process that knows the same dtypes, and in one with a newer pandas or numpy that knows more of them. Exceptions: with the names in another order tags mean other dtypes, and a new pandas name that is also a numpy name shifts them.", "quantifier": "all lists of dtype names in the two processes", "why_tests_cant": "Tags are computed at import time from the whole list of dtypes and its order.", "anchors": ["jsonpickle/tags_pd.py: get_smallest_unique_substrings, all_subclasses, get_all_pandas_dtype_strings, TYPE_MAP, REVERSE_TYPE_MAP", "jsonpickle/ext/pandas.py: PandasDfHandler"]}
{"id": "C63", "title": "One Pickler or Unpickler for several documents", "statement": "With encode(x, context=p, reset=False) and decode(text, context=u, reset=False) a Pickler p or Unpickler u can be used for one document after the other: every text is the one that encode(x) gives, every value the one that decode(text) gives. Exceptions: only the first document is read right: later ids mean objects of earlier documents; with make_refs=False the old text of a changed object is returned; after a call that raised references lead nowhere; placeholders stay in cyclic reduce states.", "quantifier": "all sequences of calls, all object graphs of C01, objects that change between the calls", "why_tests_cant": "What one call leaves behind in the context shows only in later calls; the sequences are unbounded.", "anchors": ["jsonpickle/pickler.py: encode, Pickler.reset, Pickler.flatten, Pickler._pop, Pickler._mkref, Pickler._flattened", "jsonpickle/unpickler.py: decode, Unpickler.reset, Unpickler.restore, Unpickler._swap_proxies, Unpickler._restore_id"]}
{"id": "C64", "title": "Handler extensions can be switched on and off", "statement": "After register_handlers() and then unregister_handlers() of jsonpickle.ext.numpy, ext.pandas or ext.gmpy every class and every class name has the handler it had before, and while they are registered a subclass of a handled class is handled like the nearest of its bases. Exceptions: numpy.datetime64 stays registered; a handler of one's own for such a class is lost; subclasses of MultiIndex and PeriodIndex get the handler of Index.", "quantifier": "every state of the handler registry, every class hierarchy", "why_tests_cant": "The registry can hold any handlers before the call, and the classes looked up later are unbounded.", "anchors": ["jsonpickle/ext/numpy.py: register_handlers, unregister_handlers", "jsonpickle/ext/pandas.py: register_handlers, unregister_handlers", "jsonpickle/ext/gmpy.py: register, unregister", "jsonpickle/handlers.py: Registry.register, unregister, get"]}
{"id": "C65", "title": "Custom handlers and references", "statement": "A handler that gives the parts of its object to context.flatten(part, reset=False), in one order, and takes them back with context.restore(part, reset=False) in the same order, gives objects whose parts share objects with each other, and with the rest of the graph, as in the original. Exceptions: a part that refers back to the handled object is a placeholder; and the conditions on order and reset are needed.", "quantifier": "all object graphs of C01 with handled objects anywhere in them, all positions", "why_tests_cant": "The numbers in py/id count every object of the document, so whether a part is right depends on everything encoded before it.", "anchors": ["jsonpickle/handlers.py: BaseHandler.flatten, BaseHandler.restore", "jsonpickle/pickler.py: Pickler.flatten, Pickler._flatten_obj_instance", "jsonpickle/unpickler.py: Unpickler.restore, Unpickler._restore_object"]}
{"id": "C66", "title": "The layout of the text does not matter", "statement": "decode gives the same result for every text of one JSON document: any blanks between the tokens, any way to escape characters. So whatever indent, separators and ensure_ascii the text is written with, decode gives what it gives for the default text, and C01 holds for it. Exceptions: ensure_ascii joins the halves of a surrogate pair that are separate characters.", "quantifier": "all documents, all texts of them (RFC 8259), all options of encode that give JSON, all object graphs of C01", "why_tests_cant": "Strings, nesting and options combine without bound.", "anchors": ["jsonpickle/pickler.py: encode", "jsonpickle/backend.py: JSONBackend.encode, backend_encode, set_encoder_options, decode", "jsonpickle/unpickler.py: decode"]}
{"id": "C67", "title": "Values of numpy, pandas and gmpy", "statement": "With the handlers of the extensions registered, dtypes, numpy scalars, pandas Series, Timestamps, Periods and Intervals and gmpy integers anywhere in an object graph come back with the same dtype, name, time, frequency, ends or number, and with a copy of the value, the index and the values. An index shared by two Series is one shared index in the copy. Exceptions: the dtype of a record array loses the record type; a Series named by a tuple can be written but not read.", "quantifier": "all object graphs of C01 with such objects anywhere in them, all contents", "why_tests_cant": "Positions and contents combine without bound; sharing between parts of handled objects depends on the numbering of all objects before.", "anchors": ["jsonpickle/ext/numpy.py: NumpyBaseHandler.flatten_dtype, restore_dtype, NumpyDTypeHandler, NumpyGenericHandler", "jsonpickle/ext/pandas.py: PandasSeriesHandler, PandasTimestampHandler, PandasPeriodHandler, PandasIntervalHandler, PandasProcessor", "jsonpickle/ext/gmpy.py: GmpyMPZHandler"]}
{"id": "C68", "title": "Documents of version 1 decode with v1_decode=True", "statement": "decode(text, v1_decode=True), for a text in which dicts take no part in the numbering of references (as version 1 wrote them), has the same result as decode of the current document with the same content: the same objects with the same references among lists and instances, the same imports and calls in the same order. Exceptions: the flag has to fit the document: a text of the current encode read with v1_decode=True is decoded without an error to a graph with other references.", "quantifier": "all documents of lists, dicts with plain string keys, tuples, sets of scalars, classes and plain instances, of any size, with any references to lists and instances", "why_tests_cant": "The number in a reference depends on all objects before it in the document; a wrong count shows only in documents with particular mixtures of dicts and references.", "anchors": ["jsonpickle/unpickler.py: decode (v1_decode), Unpickler._restore_dict, _restore_id, _mkref, _restore_object_instance"]}
{"id": "C69", "title": "numeric_keys=True changes nothing for JSON backends", "statement": "encode(x, numeric_keys=True) returns the same text, or raises the same exception, as encode(x): JSON spells number keys as repr does. With keys=True the option has no effect. Exceptions: a boolean key is spelled true by JSON and True by repr; floats have to be spelled by repr as JSON does (nan and infinity are not); of keys that become one string (1 and '1') numeric_keys=True writes both, encode(x) the second.", "quantifier": "all object graphs, all other options except handle_readonly and sorting backends, all answers of user code", "why_tests_cant": "A key may stand in any dict, dict subclass instance or attribute dict of the graph, below any object and beside any references.", "anchors": ["jsonpickle/pickler.py: Pickler._flatten_key_value_pair, _flatten_string_key_value_pair, encode"]}
{"id": "C70", "title": "Objects whose __reduce__ state leads back to them", "statement": "If __reduce__ of an object gives constructor arguments and a state dict in which the object itself occurs again (directly in the dict, in lists, in dicts, or as attribute of other objects, at any depth), decode(encode(x)) still has the structure of x: every reference to the object, inside its state and outside, is the one restored object, also for several such objects that lead to each other, and no internal placeholder is left anywhere. Exceptions: the object must not be an element of a tuple in its own state or arguments (C41) and keys=True may leave placeholders (C41); if the state dict is reached before the object (encode(x.__dict__)) the state is lost; a frozen dataclass whose attribute is such an object in the making makes decode raise FrozenInstanceError.", "quantifier": "all object graphs of scalars, tuples, lists, dicts with string keys, classes, plain instances and objects with __reduce__ (a class, arguments, optionally a dict that becomes __dict__), with any references and cycles among them", "why_tests_cant": "The object does not exist while its arguments and state are restored; what stands for it has to be replaced at every place where it was stored, and where those are depends on the whole graph and on the order in which it is walked.", "anchors": ["jsonpickle/unpickler.py: Unpickler._restore_reduce, _swapref, _swap_proxies, _restore_list, _restore_dict, _restore_from_dict, _Proxy, _obj_setattr, _obj_setvalue", "jsonpickle/pickler.py: Pickler._flatten_obj_instance (__reduce__)"]}
{"id": "C71", "title": "decode imports only what the document names", "statement": "Every name that decode hands to class lookup or to the import system is a string that stands in the document as the value of py/object, py/type or py/function, every module it loads is named by py/mod (or py/repr with safe=True), every expression it evaluates is the value of a py/repr (safe=False only), every name given to on_missing stands under py/object. Conversely the result (value, objects, exception, calls made) is the same under any other import system that agrees on the modules these names start with: the names before a dot, or before the slash of py/mod. A document without such tags is decoded alike where nothing can be imported.", "quantifier": "all JSON texts, all options, classes arguments and environments whose handlers restore only parts of the object handed to them; documents inside json:// keys count as parts", "why_tests_cant": "a test can only look at some documents and some modules; which imports can be provoked by a document is a statement about all of them", "anchors": ["jsonpickle/unpickler.py: Unpickler._restore_type, _restore_object, _restore_function, _restore_module, _restore_repr, _loadmodule, loadrepr, getargs", "jsonpickle/util.py: loadclass"]}
{"id": "C72", "title": "Documents without names run no code", "statement": "If no object of the document (also inside json:// keys) has a key py/object, py/type, py/function, py/mod or py/repr, decode imports nothing and calls no class, function, custom handler, __setstate__ or setter, whatever py/reduce, py/newobj, py/id and other tags it contains; the value consists of None, booleans, numbers, strings, bytes, tuples and new lists, dicts, sets, bytearrays and list iterators, and objects that existed before are unchanged. This also holds when decode ends with an exception.", "quantifier": "all JSON texts without these keys, all options, classes arguments, handlers and environments", "why_tests_cant": "py/reduce calls whatever it is given; that nothing callable can be given without a name is a statement about all documents", "anchors": ["jsonpickle/unpickler.py: Unpickler._restore_tags, _restore_reduce, _restore_list, _restore_dict, _restore_id, _swap_proxies"]}
{"id": "C73", "title": "Handler registrations stay with their class", "statement": "Calls of register and unregister for a class change nothing for other classes: if no instance of the class, of a class with the same importable name, or (after base=True, or for unregister) of a subclass exists in the object graph, encode gives the same text or exception as before; if no py/object entry of a document is loaded as such a class or equals its name, decode does the same as before: value, objects, calls, exception.", "quantifier": "all object graphs and texts, all options and hooks, all sequences of register and unregister calls on top of any registry", "why_tests_cant": "a registration is global state; that it cannot leak into unrelated data is a statement about all graphs, documents and histories", "anchors": ["jsonpickle/handlers.py: Registry.get, register, unregister", "jsonpickle/pickler.py: Pickler._flatten_obj_instance", "jsonpickle/unpickler.py: Unpickler._restore_object, loadclass"]}
{"id": "C74", "title": "Objects outside the graph do not matter", "statement": "What encode(x) returns or raises is determined by the objects reachable from x (through attributes, items, elements and what __reduce__, __getstate__, handlers etc. return for them): changing, adding or removing other objects of the program changes nothing. Where repr of an object is written (max_depth, make_refs=False) the addresses of temporary dicts are the same.", "quantifier": "all object graphs, all surroundings, all options but handle_readonly and sorted keys, all hooks", "why_tests_cant": "a statement about two runs in arbitrary surroundings; id-keyed tables make leaks of outside objects possible in principle", "anchors": ["jsonpickle/pickler.py: encode, Pickler._flatten, _log_ref, _mkref"]}
{"id": "C75", "title": "handle_readonly=True on decode only rescues", "statement": "decode(text, handle_readonly=True) does what decode(text) does (value, objects, calls, exception), unless the latter raises AttributeError; in a program without int or str subclasses with empty __slots__ there is no difference at all.", "quantifier": "all texts, all classes and handlers, all other options, every state of the Unpickler", "why_tests_cant": "a statement about two runs over all documents; the exception handlers on the way could swallow or turn the difference into another result", "anchors": ["jsonpickle/unpickler.py: decode, Unpickler._restore_from_dict"]}
{"id": "C76", "title": "on_missing reports and changes nothing else", "statement": "With any on_missing policy ('warn', 'error', a function, any other value) decode does what it does with 'ignore': same value or exception, same objects and references, same calls in the same order, apart from the warnings and the calls of the function; unless it raises an exception of the policy itself: ClassNotFoundError for 'error', an exception of the function. With 'warn' the outcome is always that of 'ignore', and what 'error' lets through is what 'ignore' gives. Exceptions: a TypeError of the function inside a tuple, set, iterator or reduced object is swallowed there like any TypeError.", "quantifier": "all texts, all classes and handlers, all policies, all other options, every state of the Unpickler", "why_tests_cant": "a statement about two runs over all documents and all callbacks; an exception of the policy passes many exception handlers on its way out", "anchors": ["jsonpickle/unpickler.py: Unpickler._process_missing, _restore_object, _restore_object_instance, _restore_tuple"]}
{"id": "C77", "title": "warn and keys make no difference without occasion", "statement": "encode(x, warn=True) returns or raises what encode(x) does and leaves the same objects. encode(x, keys=True) returns or raises what encode(x) does when every dict, namespace and dict subclass in the graph of x has only usual keys: strings that are no tag names and do not begin with json://. Exceptions: with a backend that sorts keys, warn=True refuses an object with __slots__ (TypeError).", "quantifier": "all values and object graphs, all user code (handlers, reduce, getstate, ...), all other options but sort_keys (and handle_readonly for keys)", "why_tests_cant": "a statement about two runs for all graphs; keys=True walks every dict twice, and warnings are given in the middle of the walk", "anchors": ["jsonpickle/pickler.py: Pickler._pickle_warning, _flatten_dict_obj, _flatten_key_value_pair, _flatten_string_key_value_pair, _flatten_non_string_key_value_pair, _sort_attrs"]}
{"id": "C78", "title": "Further classes make no difference", "statement": "decode(text, classes=A) does what decode(text, classes=B) does (value or exception, objects, calls) when A and B give the same class for every dotted name under py/object, py/type and py/function in the document and for what follows its last dot; so classes of other names can be added before, after, or alone. Exceptions: a list or a dict in place of the name raises TypeError instead of AttributeError once there are classes.", "quantifier": "all JSON texts, all pairs of classes arguments (a class, nested sequences, dicts, none), all options and environments whose handlers restore only parts of the object handed to them", "why_tests_cant": "Neither the documents nor the classes that one can pass are bounded; the table is consulted at every name in the middle of the walk.", "anchors": ["jsonpickle/unpickler.py: Unpickler.register_classes, _restore_object, _restore_type, _restore_function", "jsonpickle/unpickler.py: getargs", "jsonpickle/util.py: loadclass"]}
{"id": "C79", "title": "A ufunc comes back as itself", "statement": "With the numpy handlers registered, decode(encode(x)) of a ufunc is the very object that is found under its name, not a copy; in a list every occurrence is that object, also the later ones that are written as references. A ufunc whose name leads nowhere becomes None, in all its places, without an error. The classes given to decode are not asked for it.", "quantifier": "all lists of ufuncs of any length with any repetitions, all import systems, all states of the decoder, all options that leave references and depth alone", "why_tests_cant": "lists and import systems are not bounded; tests use one ufunc of numpy, which is found, and do not reach the case of a name that leads nowhere", "anchors": ["jsonpickle/ext/numpy.py: NumpyUfuncHandler.flatten, NumpyUfuncHandler.restore", "jsonpickle/util.py: importable_name, loadclass", "jsonpickle/unpickler.py: Unpickler._restore_object, _swapref"]}
{"id": "C80", "title": "A handler's context is the pickler that called it", "statement": "Inside flatten and restore, self.context is the pickler or unpickler that called the handler, at every moment, also after calls of further handlers through self.context or through encode and decode, and in calls one after the other. Exceptions: a handler that is registered as an object (as the one for numpy arrays is) and is entered again by another pickler while it works has that pickler as context afterwards; handlers registered as classes do not have this.", "quantifier": "all numbers of handlers registered as classes or as objects, calls nested to any depth and in any sequence, whatever the handler objects had as context before", "why_tests_cant": "how calls of handlers nest is not bounded, and the mistake shows only when the same handler object is entered again in the middle of its work", "anchors": ["jsonpickle/handlers.py: BaseHandler.__init__, BaseHandler.__call__", "jsonpickle/pickler.py: Pickler._flatten_obj_instance", "jsonpickle/unpickler.py: Unpickler._restore_object", "jsonpickle/ext/numpy.py: register_handlers"]}
{"id": "C81", "title": "One tag of an object counts", "statement": "If an object of a document has several tags, the first of py/tuple, py/set, py/b64, py/b85, py/bytea, py/id, py/iterator, py/object, py/type, py/reduce, py/function, py/mod, py/repr counts, and all entries beside it are ignored: decode gives the same result or error, the same objects, imports and calls as for the document without them. Exceptions: beside py/object only the tags behind it in the order are ignored, as the other entries are the attributes and the rest of the state; py/type with the name of a class that is not found gives the object as a dict with all its entries.", "quantifier": "all documents with such entries, with any contents, at any number of places inside lists, dicts without tags, the lists of tuples, sets, iterators and reduce values, and (keys=False) the attributes, states and arguments of instances; all options, classes and earlier states of the Unpickler; for py/object and py/type classes that are found, and for py/object and for instances around the place classes without handler that allow blank instances", "why_tests_cant": "there are infinitely many combinations of tags and places, and ignored entries may contain anything, also references and names of classes that must not be imported", "anchors": ["jsonpickle/unpickler.py: Unpickler._restore_tags, _restore_tuple, _restore_set, _restore_base64, _restore_base85, _restore_bytearray, _restore_id, _restore_iterator, _restore_reduce, _restore_function, _restore_module, _restore_repr"]}
{"id": "C82", "title": "Columns of old data frames", "statement": "A pandas data frame in the format of version 3.3 (text in CSV) is decoded with every column read by its own dtype: dates parsed and given their dtype, time differences read as text and converted, complex numbers by complex, all others by read_csv with the dtype, columns without dtype as read_csv likes. Other columns, and the order in which the dtypes are written, make no difference.", "quantifier": "all numbers of columns, all names and dtypes, in all orders, with any contents of the text", "why_tests_cant": "the dtypes of a frame are sorted into four overlapping tables, and mistakes show only in certain combinations and orders of columns", "anchors": ["jsonpickle/ext/pandas.py: make_read_csv_params, PandasDfHandler.restore_v3_3"]}
{"id": "C83", "title": "Registering yaml", "statement": "After jsonpickle.ext.yaml.register(), whatever could be encoded or decoded before is encoded and decoded with the same result, by the same calls to the same backends; if it does not return True, nothing changes at all. It returns True exactly if yaml can be imported and has dump, safe_load and YAMLError; then yaml is the last backend and decides what all the others refuse, with the options set for it beforehand. Exceptions: errors are not kept: a text that no backend accepted may be accepted by yaml.", "quantifier": "all states of the backend manager in which each backend is listed once and yaml is not, all objects, texts and options", "why_tests_cant": "tests register yaml and make it preferred; whether the other backends still decide, and are called in the same way, depends on which backends are there, their options and their errors", "anchors": ["jsonpickle/ext/yaml.py: register", "jsonpickle/backend.py: JSONBackend.load_backend, JSONBackend.encode, JSONBackend.decode"]}
{"id": "C84", "title": "What py/repr evaluates", "statement": "With safe=False, a py/repr text with exactly one slash has the module before the slash imported once and then the expression behind it evaluated once, with the top package known by the first part of the module's name; if the import fails nothing is evaluated. A text with no slash or several (so any expression with a slash in it) is a ValueError, and nothing is imported or evaluated. Exceptions: the expression also sees the names reprstr, module and evalstr, which stand for the text and its parts.", "quantifier": "all texts, all modules and all results of importing and evaluating", "why_tests_cant": "which code runs, and in which names, depends on the text; tests evaluate a few expressions of one module", "anchors": ["jsonpickle/unpickler.py: loadrepr, Unpickler._restore_repr"]}
{"id": "C85", "title": "Arrays as plain lists", "statement": "With UnpickleableNumpyGenericHandler registered for arrays and unpicklable=False, an array is encoded as nested JSON lists: the lists at depth k have the length of dimension k, and the entry at the indices of an item is the document of that item. Arrays with the same shape and items give the same document, however they lie in memory. Exceptions: with unpicklable=True, the default, every array raises NotImplementedError, as the handler passes over the flatten of its base class.", "quantifier": "all arrays: any number of dimensions, also of length 0, any strides, offset and byte order, including views", "why_tests_cant": "the handler is not used in any test; views and byte orders are infinitely many", "anchors": ["jsonpickle/ext/numpy.py: UnpickleableNumpyGenericHandler.flatten", "jsonpickle/handlers.py: BaseHandler.flatten"]}
