#!/usr/bin/env python3
"""Writes /verif/properties.jsonl (one JSON object per line)."""
import json, os
P = []
def p(id, title, statement, quantifier, why, anchors):
    P.append(dict(id=id, title=title, statement=statement, quantifier=quantifier,
                  why_tests_cant=why, anchors=anchors))

PK, UP, UT, BK, HD, TG = ("jsonpickle/pickler.py", "jsonpickle/unpickler.py", "jsonpickle/util.py",
                          "jsonpickle/backend.py", "jsonpickle/handlers.py", "jsonpickle/tags.py")

p("C01", "Round trip of data graphs",
  "decode(encode(x)) with default options yields an object graph isomorphic to the one rooted at x: same types, same atoms, same element/attribute order, for None/bool/int/float/str/bytes/bytearray/list/tuple/set/dict with string keys/importable classes and functions/plain instances, nested and shared in any way, cyclic or not.",
  "every finite object graph built from those kinds of object, of any size, depth, sharing pattern and cyclicity",
  "The set of object graphs is infinite and cycles/sharing interact with reference numbering; tests sample a handful of shapes.",
  [PK+": Pickler._flatten_impl, _get_flattener, _flatten_dict_obj, _ref_obj_instance", UP+": Unpickler._restore_tags, _restore_list, _restore_dict, _restore_object_instance, _restore_id"])
p("C02", "Aliasing is preserved exactly",
  "Two positions of decode(encode(x)) hold the identical (is) list, dict or instance if and only if the corresponding positions of x do: no object is duplicated, no two objects are merged, cycles stay cycles.",
  "every pair of positions in every supported object graph",
  "The claim is about all pairs of positions in all graphs; a wrong reference number only shows for particular traversal orders.",
  [PK+": Pickler._mkref, _log_ref, _getref", UP+": Unpickler._mkref, _swapref, _restore_id"])
p("C03", "encode terminates on every finite graph",
  "With default options encode(x) performs finitely many steps for every finite object graph, including graphs whose cycles pass through lists, dicts, instances, tuples and sets.",
  "every finite object graph (any object kinds the model covers, including __reduce__/__getstate__ results)",
  "Non-termination is a statement about unboundedly many steps on arbitrary cyclic graphs.",
  [PK+": Pickler._flatten, _mkref, _in_cycle"])
p("C04", "decode terminates on every input",
  "decode(text) performs finitely many steps for every input text and every option setting: it returns a value or raises, it never loops.",
  "every input string, every JSON document, every option combination",
  "Adversarial documents are unbounded (nested tags, references, json:// keys containing further documents).",
  [UP+": decode, Unpickler._restore, _restore_pickled_key, _swap_proxies"])
p("C05", "Binary data round trips",
  "bytes and bytearray values decode to exactly the same byte sequence, with base64 (default) and with use_base85=True. The texts in between are the base64 of RFC 4648 under py/b64 and the base85 of Python (the alphabet of RFC 1924, groups of four bytes, padding cut off) under py/b85, so that other programs can read them.",
  "every byte string of every length (all residues mod 3 and mod 4)",
  "Infinitely many byte strings; padding/truncation logic depends on the length residue and on carries.",
  [UT+": b64encode, b64decode, b85encode, b85decode", PK+": Pickler._flatten_bytestring", UP+": _restore_base64, _restore_base85, _restore_bytearray"])
p("C06", "Malformed binary payloads never raise",
  "Decoding {'py/b64': p} or {'py/b85': p} returns bytes for every JSON value p: a malformed payload yields b'' (or the bytes that could be decoded), never an exception.",
  "every JSON payload value",
  "All malformed payloads cannot be enumerated.",
  [UT+": b64decode, b85decode", UP+": _restore_base64, _restore_base85"])
p("C07", "Plain JSON decodes to itself",
  "A JSON document in which no object uses a jsonpickle tag as a key decodes to exactly the corresponding dict/list/atom tree, and no import, call, eval or class lookup happens.",
  "every tag-free JSON document, every option setting with keys=False (and keys=True if no key starts with json://)",
  "Universal over documents and about the absence of effects.",
  [UP+": Unpickler._restore_tags, _restore_dict, _restore_list"])
p("C08", "safe=True never evaluates code strings",
  "With safe=True (the default) no input document makes decode call eval(); with safe=False exactly the py/repr documents do. Documents without py/repr decode alike either way. safe=True does NOT prevent calling importable callables.",
  "every input document and every history of calls on one Unpickler",
  "Security claims quantify over all adversarial inputs.",
  [UP+": loadrepr, _restore_repr, _restore_repr_safe, _restore_tags"])
p("C09", "Reusing a Pickler/Unpickler is history independent",
  "Pickler.flatten(x) and Unpickler.restore(d) with reset=True give the same result as on a freshly constructed object, whatever calls came before, including calls that raised part-way.",
  "every history of earlier calls, every crash point inside them",
  "Histories and exception points are unbounded.",
  [PK+": Pickler.reset, _pop, flatten", UP+": Unpickler.reset, restore"])
p("C10", "Output does not depend on object addresses",
  "Two isomorphic object graphs encode to the identical text; consequently encode(decode(encode(x))) == encode(x).",
  "every pair of isomorphic supported graphs",
  "Addresses (id()) are chosen by the allocator; the claim is over all allocations.",
  [PK+": Pickler._mkref, _getref, _flatten_dict_obj"])
p("C11", "References point backwards to a definition",
  "Every {'py/id': n} emitted for a supported graph satisfies 0 <= n < number of reference-numbered objects written before it in document order.",
  "every supported graph, every emitted reference",
  "Quantifies over all graphs and all references in them.",
  [PK+": Pickler._getref, _log_ref"])
p("C12", "unpicklable=False gives plain JSON",
  "encode(x, unpicklable=False) on graphs of atoms, lists, tuples, sets, dicts and plain instances contains no jsonpickle tag key; bytes are the exception.",
  "every such graph on which encode terminates",
  "Universal over graphs.",
  [PK+": Pickler._ref_obj_instance, _get_flattener, _flatten_obj_instance"])
p("C13", "make_refs=False never emits references and breaks cycles",
  "encode(x, make_refs=False) terminates on every finite graph and its output contains no py/id object.",
  "every finite graph",
  "Universal over cyclic graphs; termination claim.",
  [PK+": _in_cycle, Pickler._mkref, _flatten"])
p("C14", "max_depth bounds recursion",
  "encode(x, max_depth=n) never descends more than n levels: the nesting depth of the produced JSON is bounded by a fixed function of n, for any graph, and encoding terminates.",
  "every graph, every n",
  "Universal over graphs and bounds.",
  [PK+": Pickler._max_reached, _push, _pop, _flatten_obj"])
p("C15", "max_iter bounds iterator consumption",
  "Encoding an iterator with max_iter=n consumes and emits exactly min(n, available) items, in order, also for infinite iterators.",
  "every iterator (finite or infinite), every n",
  "Infinite iterators and all n.",
  [PK+": Pickler._flatten_obj_instance (islice)"])
p("C16", "keys=True preserves non-string keys",
  "With keys=True on both sides dicts with int/float/bool/None/tuple/instance keys round trip, including keys that share objects with values elsewhere in the graph.",
  "every supported graph whose dicts have arbitrary supported hashable keys",
  "The escaped key text is itself a document sharing the reference numbering; two-phase ordering must agree for all dicts.",
  [PK+": Pickler._escape_key, _flatten_string_key_value_pair, _flatten_non_string_key_value_pair", UP+": _restore_pickled_key, _restore_dict"])
p("C17", "keys=False key coercion",
  "With keys=False string keys are written verbatim, None as 'null', other keys as repr() (numbers as JSON spells them with numeric_keys=True); no entry with a picklable value and unreserved key is lost as long as the coerced keys are distinct.",
  "every dict",
  "Key collisions occur for particular combinations of keys only.",
  [PK+": Pickler._flatten_key_value_pair"])
p("C18", "keys=True protects user keys that look like tags",
  "With keys=True a dict whose string keys collide with the wire format (a tag name or the json:// prefix) decodes to the same dict.",
  "every dict with string keys",
  "Any tag missing from the protected list breaks it; needs all keys.",
  [PK+": Pickler._flatten_string_key_value_pair", TG+": RESERVED"])
p("C19", "Unpicklable values",
  "A lambda or other unpicklable function is replaced by null inside a list, and dropped (with its key) from a dict or instance; named module functions are kept.",
  "every dict/list and position",
  "Universal over containers.",
  [UT+": _is_picklable, _is_module_function", PK+": _get_flattener, _flatten_key_value_pair"])
p("C20", "fail_safe contains exceptions",
  "With fail_safe set to a function that does not raise, no ordinary exception raised by user code (__getstate__, __reduce__, handlers, repr) escapes from encode; KeyboardInterrupt and SystemExit still do; the failing object is replaced by fail_safe(e) and the depth bookkeeping stays balanced.",
  "every graph and every set of failing objects",
  "All crash points inside all graphs.",
  [PK+": Pickler._flatten_obj"])
p("C21", "fail_safe does not disturb other references",
  "Replacing a failing object by fail_safe(e) leaves the rest of the document decodable with correct references.",
  "every graph and crash point",
  "Only shows when a crash happens after some inner object was numbered.",
  [PK+": Pickler._flatten_obj, _log_ref"])
p("C22", "on_missing policy",
  "When a class cannot be found: 'ignore' returns the raw JSON dict, 'warn' warns and returns it, 'error' raises ClassNotFoundError, a function is called with the class name; policy strings are case-insensitive.",
  "every document naming a missing class, every policy",
  "Universal over class names/documents/policies.",
  [UP+": decode, _process_missing, _restore_object"])
p("C23", "classes= takes precedence over imports",
  "A class supplied via classes= (single, sequence, nested sequences, dict) under its importable name is used for decoding that name without importing anything; later registrations win.",
  "every classes argument and class name",
  "Arbitrarily nested collections.",
  [UP+": Unpickler.register_classes", UT+": loadclass"])
p("C24", "Names resolve back to the object they name",
  "loadclass(importable_name(c)) is c for every importable class or function c (nested classes included), and resolving a name only imports dotted prefixes of that name.",
  "every name and every module/attribute environment",
  "All import environments and nesting depths.",
  [UT+": importable_name, loadclass, translate_module_name, untranslate_module_name"])
p("C25", "Handler registry behaves like a map",
  "After any sequence of register/unregister calls, lookup by class or by name returns the handler most recently registered and not since unregistered; base=True handlers apply to all subclasses and a direct registration wins over a base one.",
  "every sequence of registry operations",
  "Histories are unbounded.",
  [HD+": Registry.register, unregister, get"])
p("C26", "Backend fallthrough order",
  "encode/decode use the first backend (in preference order) that succeeds; if all fail the last backend's exception is raised; with fallthrough disabled only the preferred backend is tried; decoding falls through only on the backend's declared decode error.",
  "every list of backends and every per-backend outcome",
  "All combinations of outcomes and orders.",
  [BK+": JSONBackend.encode, decode, enable_fallthrough, set_preferred_backend"])
p("C27", "Backend bookkeeping is consistent",
  "After any sequence of load/remove/set_preferred/options calls: a usable backend exists iff one is loaded, every listed backend has an encoder and a decoder, the preferred backend is first, removal forgets the backend completely.",
  "every sequence of backend-management calls",
  "Histories are unbounded; duplicate loads are a corner case.",
  [BK+": JSONBackend.load_backend, remove_backend, set_preferred_backend, _verify"])
p("C28", "Encoder/decoder options",
  "encode passes exactly the options last set for the backend, with indent/separators overriding them for that call only; stored options are never modified by encode or decode.",
  "every sequence of set_*_options and encode/decode calls",
  "Histories; aliasing of the stored kwargs dict.",
  [BK+": backend_encode, backend_decode, set_encoder_options, set_decoder_options"])
p("C29", "__getstate__/__setstate__ protocol",
  "For a class with __getstate__ and __setstate__, decode calls __setstate__ on a new instance exactly once with an object isomorphic to what __getstate__ returned (falsy states excepted); without __setstate__ a dict state becomes the instance attributes, and a pair of a dict (or None) and a dict becomes the attributes and the slots.",
  "every state object graph",
  "Arbitrary states.",
  [PK+": Pickler._getstate, _flatten_obj_instance", UP+": _restore_state, _restore_object_instance"])
p("C30", "__reduce__ protocol",
  "For an object whose __reduce__ returns (f, args, state, listitems, dictitems), decode calls f exactly once with arguments isomorphic to args, then applies state, list items and dict items in that order.",
  "every reduce value whose parts do not refer back to the object itself",
  "Arbitrary argument graphs.",
  [PK+": Pickler._reduce, _flatten_obj_instance", UP+": _restore_reduce"])
p("C31", "__getnewargs__/__getnewargs_ex__/__getinitargs__ protocol",
  "decode calls cls.__new__ with arguments isomorphic to those returned by __getnewargs__ (or __getnewargs_ex__, which takes precedence); namedtuples and tuple subclasses round trip.",
  "every argument graph not referring back to the object itself",
  "Arbitrary argument graphs.",
  [PK+": _flatten_obj_instance", UP+": getargs, _restore_object_instance"])
p("C32", "default_factory",
  "A defaultdict whose factory is a type round trips with the same factory and items; a non-type factory does not disturb references.",
  "every defaultdict content graph",
  "Order of numbering differs between encode and decode only when a non-type factory and shared values coexist.",
  [PK+": Pickler._flatten_dict_obj", UP+": _loadfactory, _restore_object_instance", HD+": CloneFactory"])
p("C33", "Objects encoded as null do not disturb references",
  "When an object is encoded as null (file objects, handlers returning None, objects that cannot be pickled) later references still resolve to the right objects.",
  "every graph and position of such an object",
  "Depends on what is referenced later.",
  [PK+": _ref_obj_instance, _flatten_obj_instance", HD+": TextIOHandler"])
p("C34", "Subclasses of dict, list and set round trip",
  "Instances of importable subclasses of dict/list/set keep class, contents (in order) and instance attributes.",
  "every content and attribute graph",
  "Arbitrary contents, sharing between items and attributes.",
  [PK+": _flatten_dict_obj, _flatten_sequence_obj", UP+": _restore_from_dict, _restore_object_instance_variables"])
p("C35", "__slots__ instances round trip",
  "Instances of classes with __slots__ keep the values of all set slots.",
  "every slot list and value graph",
  "Arbitrary slot hierarchies.",
  [PK+": _flatten_newstyle_with_slots, _flatten_obj_attrs", UP+": _restore_from_dict"])
p("C36", "_jsonpickle_exclude is honoured",
  "An attribute named in _jsonpickle_exclude never appears in the object's encoded attributes (plain, slots and dict-state objects), and all other attributes are unaffected.",
  "every attribute set and exclude set",
  "Universal.",
  [PK+": _flatten_obj_instance, _flatten_obj_attrs", UT+": items"])
p("C37", "handler_context delivery",
  "A handler method receives handler_context exactly when one was supplied (not None) and its signature has a parameter of that name that can be passed by keyword; otherwise it is called without it.",
  "every signature and context value",
  "All signatures.",
  [HD+": handler_accepts_handler_context", PK+": _call_handler_flatten", UP+": _call_handler_restore"])
p("C38", "Object identity numbers are never confused by id() reuse",
  "During one encode call the reference table never confuses two distinct objects even though CPython may reuse the address of a freed temporary.",
  "every allocation/deallocation schedule",
  "Depends on the allocator's schedule.",
  [PK+": Pickler._seen, _log_ref, _flattened"])
p("C39", "JSON text round trip",
  "The text produced for a flattened document parses back to exactly that document.",
  "every JSON document (strings over all code points, arbitrarily large ints, nesting)",
  "Infinite; escaping corner cases.",
  [BK+": JSONBackend.encode, decode"])
p("C40", "Malformed references degrade to None",
  "A {'py/id': v} inside a list or dict whose v is out of range or of the wrong type is restored as None, never as an unrelated object and never raises.",
  "every v and position",
  "All malformed documents.",
  [UP+": _restore_id, _IDProxy, _swap_proxies"])
p("C41", "No internal placeholder leaks",
  "The object graph returned by decode never contains jsonpickle's internal placeholder objects.",
  "every document produced by encode",
  "Only specific cyclic shapes leak.",
  [UP+": _Proxy, _IDProxy, _swap_proxies, _restore_tuple, _restore_from_dict"])
p("C42", "Attribute names are preserved",
  "Every instance attribute is restored under the name it had.",
  "every attribute name",
  "Special-cased names (dunder prefix, default_factory, tag names).",
  [UP+": _restore_from_dict, _loadfactory", PK+": _flatten_key_value_pair"])
p("C43", "Identity of sets, tuples and bytearrays",
  "Shared mutable sets and bytearrays stay shared after a round trip.",
  "every graph containing shared sets/bytearrays",
  "Sharing patterns.",
  [PK+": _get_flattener, _flatten_impl"])
p("C44", "Classes, functions and modules round trip",
  "An importable class, function or module inside a graph decodes to the identical object.",
  "every importable class/function/module and environment",
  "All environments.",
  [PK+": _mktyperef, _flatten_function", UP+": _restore_type, _restore_function, _restore_module, _loadmodule"])
p("C45", "Built-in handlers",
  "uuid, datetime/date/time, array, lock and compiled regex objects round trip through their handlers; queues come back empty.",
  "every value of those types",
  "Infinite value spaces.",
  [HD+": UUIDHandler, DatetimeHandler, ArrayHandler, RegexHandler, LockHandler, QueueHandler"])
p("C46", "Pandas run-length and payload helpers",
  "rle_decode(rle_encode(l)) == l, runs are maximal and positive; restore_pandas(flatten_pandas(buf)) gives back buf and meta.",
  "every list, every buffer, every threshold",
  "Infinite.",
  ["jsonpickle/ext/pandas.py: rle_encode, rle_decode, PandasProcessor"])
p("C47", "dtype tags are unambiguous",
  "get_smallest_unique_substrings assigns distinct tags to distinct dtype names, so REVERSE_TYPE_MAP inverts TYPE_MAP.",
  "every list of distinct dtype names",
  "Depends on the whole list and its order.",
  ["jsonpickle/tags_pd.py: get_smallest_unique_substrings, split_letters_numbers_brackets"])
p("C48", "encode does not modify the encoded objects",
  "encode(x) leaves every object reachable from x unchanged (iterators excepted).",
  "every graph and option setting",
  "Options interact with attribute writes.",
  [PK+": _sort_attrs, _flatten_key_value_pair (handle_readonly)", UT+": _is_readonly"])
p("C49", "A missing class does not disturb other references",
  "When one object's class cannot be found and on_missing='ignore', the rest of the document still decodes with correct references.",
  "every document with a missing class",
  "Depends on what is referenced later.",
  [UP+": _restore_object, _mkref"])
p("C50", "Iterators",
  "An iterator decodes to an iterator yielding isomorphic items in the same order and occupies exactly one reference number on both sides.",
  "every item sequence",
  "Arbitrary items and sharing.",
  [PK+": _flatten_obj_instance", UP+": _restore_iterator"])
p("C51", "Reduce and argument methods are found as pickle finds them",
  "For an instance that is not a container, encode runs the reduce method that pickle's obj.__reduce_ex__(2) would run (the class's or a base's __reduce_ex__, or an overriding __reduce__), and none when only object's default exists; __getnewargs__, __getnewargs_ex__ and __getinitargs__ are honoured when the class or a base defines them as any kind of method.",
  "every class hierarchy and method resolution order",
  "Hierarchies are unbounded: mixins, overriding, built-in bases, order of bases.",
  [UT+": has_reduce, has_method, _is_reducible, in_dict, in_slots", PK+": Pickler._reduce"])
p("C52", "numpy arrays and views",
  "With the numpy handlers registered, an array decodes to an array of the same shape, items, writeability and (in binary form) byte order, for every size threshold, compression and memory order; a view of an array decodes to the same window on the decoded base, so that it shows what the original would show after any later writes.",
  "every shape, memory order, item size, byte order, offset and strides inside the base, threshold and lossless compression",
  "Index arithmetic over arbitrary dimensions and strides; combinations of order, byte order and storage form.",
  ["jsonpickle/ext/numpy.py: NumpyNDArrayHandler, NumpyNDArrayHandlerBinary, NumpyNDArrayHandlerView, get_byteorder"])
p("C53", "Plain data is written as plain JSON",
  "encode(x) of a tree of dicts with string keys, lists and atoms is json.dumps(x), whatever options are set, whatever was encoded before and whatever handlers are registered; hence encode(decode(text)) == json.dumps(json.loads(text)) for documents without tags.",
  "every tree, every option setting, every state of the pickler",
  "Unbounded trees; interaction of all options (cache, depth counter, reference table).",
  [PK+": Pickler._flatten, _flatten_impl, _flatten_obj, _flatten_dict_obj, _list_recurse"])
p("C54", "Errors of user code reach the caller of decode",
  "If a custom handler, a constructor, __setstate__, a state setter or the on_missing callback raises an exception while decoding, decode raises that exception and calls nothing more.",
  "every document, class table, options and place of the failing call",
  "Every restore function has its own except clauses; the failing call can be at any depth below them.",
  [UP+": Unpickler._restore_tuple, _restore_set, _restore_iterator, _restore_reduce, _restore_object_instance, _restore_object"])

p("C55", "include_properties does not change what is decoded",
  "Whatever include_properties is set to, decode(encode(x, include_properties=...)) gives the same result: the property values added to the text are ignored and the references in the text keep their meaning.",
  "every object graph, every class with any members, every document",
  "The values of properties are written in the middle of the document and may themselves contain objects and references; sharing around them is unbounded.",
  [PK+": Pickler._flatten_properties, _flatten_obj_instance", UP+": Unpickler._restore_from_dict, _restore_object_instance"])

p("C56", "Sorted keys keep references right",
  "With a JSON backend that sorts keys (set_encoder_options(..., sort_keys=True)) decode(encode(x)) is a copy of x with the same sharing as x: the references in the text still mean the same objects although the text has another order.",
  "every object graph, every order of keys and attributes, every option setting",
  "References are numbers given out in the order of writing; the sorting is done partly before and partly after them, and sharing is unbounded.",
  [PK+": encode, Pickler.flatten, Pickler._sort_attrs", "jsonpickle/backend.py: JSONBackend.set_encoder_options, backend_encode", UP+": Unpickler._restore_id, _restore_dict, _restore_from_dict"])

p("C57", "Coerced keys and left-out entries do not disturb references",
  "With keys=False (the default) dict keys that are not strings are written as strings, and entries with anonymous functions or under the names of tags are left out; decode(encode(x)) is a copy of x with these strings as keys and without these entries, with the same sharing as x.",
  "every object graph with dicts whose keys are numbers, None, tuples or other objects",
  "References are numbers given out in the order of writing; which entries reach the text depends on how the keys are spelled, and the sharing is unbounded.",
  [PK+": Pickler._flatten_key_value_pair, _flatten_dict_obj, _mkref, _getref", UP+": Unpickler._restore_dict, _restore_id"])

p("C58", "Without references every occurrence is written in full",
  "With make_refs=False (and with unpicklable=False) the text of an object graph without cycles has every object in full at every place it occurs, none replaced by a string, null or a reference, however often it is shared; with make_refs=False decode gives back the same data with a separate new object for each occurrence, and the text is the same as with references if there are none.",
  "every object graph without cycles, with any sharing",
  "An object that was met before must be told from one that is still being written, with a cache in between; the sharing of a graph is unbounded.",
  [PK+": Pickler._flatten, Pickler._flattened, Pickler._flatten_obj, _mkref, _log_ref, _in_cycle, _ref_obj_instance", UP+": Unpickler._restore"])

p("C59", "Enum members and singletons come back as themselves",
  "An object whose __reduce__ gives a class and simple arguments, and for which that call gives an existing object in the decoding process (a member of an enumeration, a singleton), is decoded to that very object at every place, however often it is shared and wherever it is in the graph; the object is not changed, and references to other objects around it stay right.",
  "every object graph of lists, dicts with string keys, tuples, sets, classes and plain instances with any number of such objects at any places",
  "The decoder gives such an object a number through a placeholder that is swapped for an object that already exists; whether the numbers and identities agree depends on the whole graph before it, which is unbounded.",
  [PK+": Pickler._flatten_obj_instance (the reduce branch), _reduce, _mkref", UP+": Unpickler._restore_reduce, _swapref, _mkref, _restore_id"])

p("C60", "pandas data frames round trip",
  "With the pandas handlers registered, decode(encode(df)) has the labels, the values, the dtypes and the order of the columns of df, its index, and the names of both axes.",
  "every data frame: any number of columns of any dtypes, with object columns holding containers or not",
  "Columns are stored in a dict by label, dtypes as run-length coded tags beside them, containers as nested documents; what comes back depends on all columns together.",
  ["jsonpickle/ext/pandas.py: PandasDfHandler.flatten, restore, PandasProcessor, rle_encode, rle_decode", "jsonpickle/tags_pd.py: TYPE_MAP, REVERSE_TYPE_MAP"])

p("C61", "pandas indexes keep their names",
  "With the pandas handlers registered, an index is decoded with its values, its dtype and its name, and a MultiIndex with its names.",
  "every index with any name",
  "Names of any type and length; the handler passes them through JSON.",
  ["jsonpickle/ext/pandas.py: PandasIndexHandler.flatten, restore, name_bundler, PandasMultiIndexHandler"])

p("C62", "dtype tags mean the same in another process",
  "A data frame encoded in one process is decoded with the same dtypes in another process that knows the same dtypes, and in one with a newer pandas or numpy that knows more of them.",
  "all lists of dtype names in the two processes",
  "Tags are computed at import time from the whole list of dtypes and its order.",
  ["jsonpickle/tags_pd.py: get_smallest_unique_substrings, all_subclasses, get_all_pandas_dtype_strings, TYPE_MAP, REVERSE_TYPE_MAP", "jsonpickle/ext/pandas.py: PandasDfHandler"])

p("C63", "One Pickler or Unpickler for several documents",
  "With encode(x, context=p, reset=False) and decode(text, context=u, reset=False) a Pickler p or Unpickler u can be used for one document after the other: every text is the one that encode(x) gives, every value the one that decode(text) gives.",
  "all sequences of calls, all object graphs of C01, objects that change between the calls",
  "What one call leaves behind in the context shows only in later calls; the sequences are unbounded.",
  [PK+": encode, Pickler.reset, Pickler.flatten, Pickler._pop, Pickler._mkref, Pickler._flattened", UP+": decode, Unpickler.reset, Unpickler.restore, Unpickler._swap_proxies, Unpickler._restore_id"])

p("C64", "Handler extensions can be switched on and off",
  "After register_handlers() and then unregister_handlers() of jsonpickle.ext.numpy, ext.pandas or ext.gmpy every class and every class name has the handler it had before, and while they are registered a subclass of a handled class is handled like the nearest of its bases.",
  "every state of the handler registry, every class hierarchy",
  "The registry can hold any handlers before the call, and the classes looked up later are unbounded.",
  ["jsonpickle/ext/numpy.py: register_handlers, unregister_handlers", "jsonpickle/ext/pandas.py: register_handlers, unregister_handlers", "jsonpickle/ext/gmpy.py: register, unregister", HD+": Registry.register, unregister, get"])

p("C65", "Custom handlers and references",
  "A handler that gives the parts of its object to context.flatten(part, reset=False), in one order, and takes them back with context.restore(part, reset=False) in the same order, gives objects whose parts share objects with each other, and with the rest of the graph, as in the original.",
  "all object graphs of C01 with handled objects anywhere in them, all positions",
  "The numbers in py/id count every object of the document, so whether a part is right depends on everything encoded before it.",
  [HD+": BaseHandler.flatten, BaseHandler.restore", PK+": Pickler.flatten, Pickler._flatten_obj_instance", UP+": Unpickler.restore, Unpickler._restore_object"])

p("C66", "The layout of the text does not matter",
  "decode gives the same result for every text of one JSON document: any blanks between the tokens, any way to escape characters. So whatever indent, separators and ensure_ascii the text is written with, decode gives what it gives for the default text, and C01 holds for it.",
  "all documents, all texts of them (RFC 8259), all options of encode that give JSON, all object graphs of C01",
  "Strings, nesting and options combine without bound.",
  [PK+": encode", "jsonpickle/backend.py: JSONBackend.encode, backend_encode, set_encoder_options, decode", UP+": decode"])

p("C67", "Values of numpy, pandas and gmpy",
  "With the handlers of the extensions registered, dtypes, numpy scalars, pandas Series, Timestamps, Periods and Intervals and gmpy integers anywhere in an object graph come back with the same dtype, name, time, frequency, ends or number, and with a copy of the value, the index and the values. An index shared by two Series is one shared index in the copy.",
  "all object graphs of C01 with such objects anywhere in them, all contents",
  "Positions and contents combine without bound; sharing between parts of handled objects depends on the numbering of all objects before.",
  ["jsonpickle/ext/numpy.py: NumpyBaseHandler.flatten_dtype, restore_dtype, NumpyDTypeHandler, NumpyGenericHandler", "jsonpickle/ext/pandas.py: PandasSeriesHandler, PandasTimestampHandler, PandasPeriodHandler, PandasIntervalHandler, PandasProcessor", "jsonpickle/ext/gmpy.py: GmpyMPZHandler"])

p("C68", "Documents of version 1 decode with v1_decode=True",
  "decode(text, v1_decode=True), for a text in which dicts take no part in the numbering of references (as version 1 wrote them), has the same result as decode of the current document with the same content: the same objects with the same references among lists and instances, the same imports and calls in the same order.",
  "all documents of lists, dicts with plain string keys, tuples, sets of scalars, classes and plain instances, of any size, with any references to lists and instances",
  "The number in a reference depends on all objects before it in the document; a wrong count shows only in documents with particular mixtures of dicts and references.",
  ["jsonpickle/unpickler.py: decode (v1_decode), Unpickler._restore_dict, _restore_id, _mkref, _restore_object_instance"])

p("C69", "numeric_keys=True changes nothing for JSON backends",
  "encode(x, numeric_keys=True) returns the same text, or raises the same exception, as encode(x): JSON spells number keys as repr does. With keys=True the option has no effect.",
  "all object graphs, all other options except handle_readonly and sorting backends, all answers of user code",
  "A key may stand in any dict, dict subclass instance or attribute dict of the graph, below any object and beside any references.",
  [PK+": Pickler._flatten_key_value_pair, _flatten_string_key_value_pair, encode"])

p("C70", "Objects whose __reduce__ state leads back to them",
  "If __reduce__ of an object gives constructor arguments and a state dict in which the object itself occurs again (directly in the dict, in lists, in dicts, or as attribute of other objects, at any depth), decode(encode(x)) still has the structure of x: every reference to the object, inside its state and outside, is the one restored object, also for several such objects that lead to each other, and no internal placeholder is left anywhere.",
  "all object graphs of scalars, tuples, lists, dicts with string keys, classes, plain instances and objects with __reduce__ (a class, arguments, optionally a dict that becomes __dict__), with any references and cycles among them",
  "The object does not exist while its arguments and state are restored; what stands for it has to be replaced at every place where it was stored, and where those are depends on the whole graph and on the order in which it is walked.",
  ["jsonpickle/unpickler.py: Unpickler._restore_reduce, _swapref, _swap_proxies, _restore_list, _restore_dict, _restore_from_dict, _Proxy, _obj_setattr, _obj_setvalue", PK+": Pickler._flatten_obj_instance (__reduce__)"])

p("C71", "decode imports only what the document names",
  "Every name that decode hands to class lookup or to the import system is a string that stands in the document as the value of py/object, py/type or py/function, every module it loads is named by py/mod (or py/repr with safe=True), every expression it evaluates is the value of a py/repr (safe=False only), every name given to on_missing stands under py/object. Conversely the result (value, objects, exception, calls made) is the same under any other import system that agrees on the modules these names start with: the names before a dot, or before the slash of py/mod. A document without such tags is decoded alike where nothing can be imported.",
  "all JSON texts, all options, classes arguments and environments whose handlers restore only parts of the object handed to them; documents inside json:// keys count as parts",
  "a test can only look at some documents and some modules; which imports can be provoked by a document is a statement about all of them",
  ["jsonpickle/unpickler.py: Unpickler._restore_type, _restore_object, _restore_function, _restore_module, _restore_repr, _loadmodule, loadrepr, getargs", "jsonpickle/util.py: loadclass"])

p("C72", "Documents without names run no code",
  "If no object of the document (also inside json:// keys) has a key py/object, py/type, py/function, py/mod or py/repr, decode imports nothing and calls no class, function, custom handler, __setstate__ or setter, whatever py/reduce, py/newobj, py/id and other tags it contains; the value consists of None, booleans, numbers, strings, bytes, tuples and new lists, dicts, sets, bytearrays and list iterators, and objects that existed before are unchanged. This also holds when decode ends with an exception.",
  "all JSON texts without these keys, all options, classes arguments, handlers and environments",
  "py/reduce calls whatever it is given; that nothing callable can be given without a name is a statement about all documents",
  ["jsonpickle/unpickler.py: Unpickler._restore_tags, _restore_reduce, _restore_list, _restore_dict, _restore_id, _swap_proxies"])

p("C73", "Handler registrations stay with their class",
  "Calls of register and unregister for a class change nothing for other classes: if no instance of the class, of a class with the same importable name, or (after base=True, or for unregister) of a subclass exists in the object graph, encode gives the same text or exception as before; if no py/object entry of a document is loaded as such a class or equals its name, decode does the same as before: value, objects, calls, exception.",
  "all object graphs and texts, all options and hooks, all sequences of register and unregister calls on top of any registry",
  "a registration is global state; that it cannot leak into unrelated data is a statement about all graphs, documents and histories",
  ["jsonpickle/handlers.py: Registry.get, register, unregister", "jsonpickle/pickler.py: Pickler._flatten_obj_instance", "jsonpickle/unpickler.py: Unpickler._restore_object, loadclass"])

p("C74", "Objects outside the graph do not matter",
  "What encode(x) returns or raises is determined by the objects reachable from x (through attributes, items, elements and what __reduce__, __getstate__, handlers etc. return for them): changing, adding or removing other objects of the program changes nothing. Where repr of an object is written (max_depth, make_refs=False) the addresses of temporary dicts are the same.",
  "all object graphs, all surroundings, all options but handle_readonly and sorted keys, all hooks",
  "a statement about two runs in arbitrary surroundings; id-keyed tables make leaks of outside objects possible in principle",
  ["jsonpickle/pickler.py: encode, Pickler._flatten, _log_ref, _mkref"])

p("C75", "handle_readonly=True on decode only rescues",
  "decode(text, handle_readonly=True) does what decode(text) does (value, objects, calls, exception), unless the latter raises AttributeError; in a program without int or str subclasses with empty __slots__ there is no difference at all.",
  "all texts, all classes and handlers, all other options, every state of the Unpickler",
  "a statement about two runs over all documents; the exception handlers on the way could swallow or turn the difference into another result",
  ["jsonpickle/unpickler.py: decode, Unpickler._restore_from_dict"])

p("C76", "on_missing reports and changes nothing else",
  "With any on_missing policy ('warn', 'error', a function, any other value) decode does what it does with 'ignore': same value or exception, same objects and references, same calls in the same order, apart from the warnings and the calls of the function; unless it raises an exception of the policy itself: ClassNotFoundError for 'error', an exception of the function. With 'warn' the outcome is always that of 'ignore', and what 'error' lets through is what 'ignore' gives.",
  "all texts, all classes and handlers, all policies, all other options, every state of the Unpickler",
  "a statement about two runs over all documents and all callbacks; an exception of the policy passes many exception handlers on its way out",
  ["jsonpickle/unpickler.py: Unpickler._process_missing, _restore_object, _restore_object_instance, _restore_tuple"])

p("C77", "warn and keys make no difference without occasion",
  "encode(x, warn=True) returns or raises what encode(x) does and leaves the same objects. encode(x, keys=True) returns or raises what encode(x) does when every dict, namespace and dict subclass in the graph of x has only usual keys: strings that are no tag names and do not begin with json://.",
  "all values and object graphs, all user code (handlers, reduce, getstate, ...), all other options but sort_keys (and handle_readonly for keys)",
  "a statement about two runs for all graphs; keys=True walks every dict twice, and warnings are given in the middle of the walk",
  ["jsonpickle/pickler.py: Pickler._pickle_warning, _flatten_dict_obj, _flatten_key_value_pair, _flatten_string_key_value_pair, _flatten_non_string_key_value_pair, _sort_attrs"])
p("C78", "Further classes make no difference",
  "decode(text, classes=A) does what decode(text, classes=B) does (value or exception, objects, calls) when A and B give the same class for every dotted name under py/object, py/type and py/function in the document and for what follows its last dot; so classes of other names can be added before, after, or alone.",
  "all JSON texts, all pairs of classes arguments (a class, nested sequences, dicts, none), all options and environments whose handlers restore only parts of the object handed to them",
  "Neither the documents nor the classes that one can pass are bounded; the table is consulted at every name in the middle of the walk.",
  [UP+": Unpickler.register_classes, _restore_object, _restore_type, _restore_function", UP+": getargs", UT+": loadclass"])
p("C79", "A ufunc comes back as itself",
  "With the numpy handlers registered, decode(encode(x)) of a ufunc is the very object that is found under its name, not a copy; in a list every occurrence is that object, also the later ones that are written as references. A ufunc whose name leads nowhere becomes None, in all its places, without an error. The classes given to decode are not asked for it.",
  "all lists of ufuncs of any length with any repetitions, all import systems, all states of the decoder, all options that leave references and depth alone",
  "lists and import systems are not bounded; tests use one ufunc of numpy, which is found, and do not reach the case of a name that leads nowhere",
  ["jsonpickle/ext/numpy.py: NumpyUfuncHandler.flatten, NumpyUfuncHandler.restore", UT+": importable_name, loadclass", UP+": Unpickler._restore_object, _swapref"])
p("C80", "A handler's context is the pickler that called it",
  "Inside flatten and restore, self.context is the pickler or unpickler that called the handler, at every moment, also after calls of further handlers through self.context or through encode and decode, and in calls one after the other.",
  "all numbers of handlers registered as classes or as objects, calls nested to any depth and in any sequence, whatever the handler objects had as context before",
  "how calls of handlers nest is not bounded, and the mistake shows only when the same handler object is entered again in the middle of its work",
  ["jsonpickle/handlers.py: BaseHandler.__init__, BaseHandler.__call__", "jsonpickle/pickler.py: Pickler._flatten_obj_instance", UP+": Unpickler._restore_object", "jsonpickle/ext/numpy.py: register_handlers"])

p("C81", "One tag of an object counts",
  "If an object of a document has several tags, the first of py/tuple, py/set, py/b64, py/b85, py/bytea, py/id, py/iterator, py/object, py/type, py/reduce, py/function, py/mod, py/repr counts, and all entries beside it are ignored: decode gives the same result or error, the same objects, imports and calls as for the document without them.",
  "all documents with such entries, with any contents, at any number of places inside lists, dicts without tags, the lists of tuples, sets, iterators and reduce values, and (keys=False) the attributes, states and arguments of instances; all options, classes and earlier states of the Unpickler; for py/object and py/type classes that are found, and for py/object and for instances around the place classes without handler that allow blank instances",
  "there are infinitely many combinations of tags and places, and ignored entries may contain anything, also references and names of classes that must not be imported",
  [UP+": Unpickler._restore_tags, _restore_tuple, _restore_set, _restore_base64, _restore_base85, _restore_bytearray, _restore_id, _restore_iterator, _restore_reduce, _restore_function, _restore_module, _restore_repr"])

p("C82", "Columns of old data frames",
  "A pandas data frame in the format of version 3.3 (text in CSV) is decoded with every column read by its own dtype: dates parsed and given their dtype, time differences read as text and converted, complex numbers by complex, all others by read_csv with the dtype, columns without dtype as read_csv likes. Other columns, and the order in which the dtypes are written, make no difference.",
  "all numbers of columns, all names and dtypes, in all orders, with any contents of the text",
  "the dtypes of a frame are sorted into four overlapping tables, and mistakes show only in certain combinations and orders of columns",
  ["jsonpickle/ext/pandas.py: make_read_csv_params, PandasDfHandler.restore_v3_3"])

p("C83", "Registering yaml",
  "After jsonpickle.ext.yaml.register(), whatever could be encoded or decoded before is encoded and decoded with the same result, by the same calls to the same backends; if it does not return True, nothing changes at all. It returns True exactly if yaml can be imported and has dump, safe_load and YAMLError; then yaml is the last backend and decides what all the others refuse, with the options set for it beforehand.",
  "all states of the backend manager in which each backend is listed once and yaml is not, all objects, texts and options",
  "tests register yaml and make it preferred; whether the other backends still decide, and are called in the same way, depends on which backends are there, their options and their errors",
  ["jsonpickle/ext/yaml.py: register", "jsonpickle/backend.py: JSONBackend.load_backend, JSONBackend.encode, JSONBackend.decode"])

p("C84", "What py/repr evaluates",
  "With safe=False, a py/repr text with exactly one slash has the module before the slash imported once and then the expression behind it evaluated once, with the top package known by the first part of the module's name; if the import fails nothing is evaluated. A text with no slash or several (so any expression with a slash in it) is a ValueError, and nothing is imported or evaluated.",
  "all texts, all modules and all results of importing and evaluating",
  "which code runs, and in which names, depends on the text; tests evaluate a few expressions of one module",
  ["jsonpickle/unpickler.py: loadrepr, Unpickler._restore_repr"])

p("C85", "Arrays as plain lists",
  "With UnpickleableNumpyGenericHandler registered for arrays and unpicklable=False, an array is encoded as nested JSON lists: the lists at depth k have the length of dimension k, and the entry at the indices of an item is the document of that item. Arrays with the same shape and items give the same document, however they lie in memory.",
  "all arrays: any number of dimensions, also of length 0, any strides, offset and byte order, including views",
  "the handler is not used in any test; views and byte orders are infinitely many",
  ["jsonpickle/ext/numpy.py: UnpickleableNumpyGenericHandler.flatten", "jsonpickle/handlers.py: BaseHandler.flatten"])

# Statements that turned out false as first written: the exceptions, each shown by a theorem
# named ..._refuted, are part of the statement.
EXCEPT = {
"C01": "identity of sets, tuples and bytearrays is not kept (C43); further conditions on single kinds of object are those of C29-C36, C42.",
"C03": "with unpicklable=False a cyclic list is followed for ever.",
"C10": "an address shows through the default repr of a dict key (keys=False) or of what max_depth cuts off; equal sets may iterate in different orders; with keys=True an escaped string key moves behind the others.",
"C12": "classes and the arguments of __getnewargs__ still give tags.",
"C13": "an enum member whose value is a set containing it is followed for ever.",
"C14": "enum members are not cut; an AttributeError of __repr__ inside an object with slots leaves the depth wrong; with make_refs=False documents already made are reused at any depth.",
"C16": "two different keys with the same document become one.",
"C17": "keys that become the same string lose entries.",
"C18": "names of the tags for bytes; and an escaped key with a mutable value before an unescaped key, which disturbs references.",
"C21": "the replaced object keeps its reference number in the text only, so references to objects numbered after it go wrong; without such references the rest is right.",
"C25": "unregistering one of two classes with the same importable name affects the other.",
"C27": "a backend loaded twice is listed twice, and removing it once leaves it in the list.",
"C29": "without __setstate__ a state that is neither a dict nor such a pair takes the place of the object.",
"C31": "when __getnewargs_ex__ gives no keyword arguments nothing is passed; when __getnewargs__ and __getinitargs__ are both defined references go wrong.",
"C32": "a factory that is not a type does disturb references.",
"C33": "the object encoded as null takes a reference number in the encoder only, so references to objects numbered after it go wrong; references to objects before it are right.",
"C34": "a dict subclass whose items equal its attributes loses the attributes.",
"C35": "slots of instances that also have a __dict__, private slots of a base class, and slots with names like __x__ are lost.",
"C36": "excluded names are written in list and set subclasses and in states that are a pair of dicts; in dict subclasses items under such a key are lost.",
"C38": "the table of documents already made (make_refs=False or unpicklable=False) does confuse temporary bytes objects.",
"C39": "two characters that are the halves of a surrogate pair become one.",
"C40": "with keys=True inside a dict, at the top of a document, and for negative numbers inside the range.",
"C41": "constructor arguments that lead back to the object through a tuple; with keys=True a dict in a reduce state that leads back to the object.",
"C42": "names that begin with two underscores, and the name default_factory.",
"C45": "compiled bytes patterns cannot be encoded.",
"C46": "without a compression module a payload over the threshold cannot be encoded.",
"C47": "a name that is a shortened form of another can share its tag.",
"C48": "handle_readonly and sort_keys do change objects.",
"C49": "objects inside the dict that stands for an absent object take no number, and an object whose class is there but makes no instance takes two, so references to objects after them go wrong; absent objects with scalar attributes do no harm.",
"C50": "a second reference to the same iterator gives the list behind it.",
"C51": "list-like classes are never asked; a function stored on the instance under the name is taken for the method.",
"C52": "0-d arrays in text form get one axis; views of large Fortran-order bases, of large bases in foreign byte order, and native views of single-byte bases show wrong items.",
"C53": "with handle_readonly=True a dict loses keys such as 'items'.",
"C54": "a TypeError inside a tuple, set, iterator or reduce list, and an AttributeError of __setstate__ in the reduce path, are swallowed.",
"C55": "a property or method of the class whose value is an object takes a reference number that decode does not count, so later references go wrong.",
"C56": "only the outermost object is sorted before numbers are given out, so references behind an unsorted dict or an unsorted nested object go wrong.",
"C57": "when two keys of a dict become the same string the value that is lost has taken reference numbers.",
"C58": "in a graph with a cycle the inner occurrence becomes a string.",
"C59": "an object whose __reduce__ gives a global name is written as a reference to itself and decoded to something else.",
"C60": "columns whose dtype is not in the tables, among them all with a capital in the name such as Int64, come back as object; two columns with one label cannot be encoded.",
"C61": "a string as name of an index is taken apart into its characters, an index with a number as name cannot be decoded.",
"C62": "with the names in another order tags mean other dtypes, and a new pandas name that is also a numpy name shifts them.",
"C63": "only the first document is read right: later ids mean objects of earlier documents; with make_refs=False the old text of a changed object is returned; after a call that raised references lead nowhere; placeholders stay in cyclic reduce states.",
"C64": "numpy.datetime64 stays registered; a handler of one's own for such a class is lost; subclasses of MultiIndex and PeriodIndex get the handler of Index.",
"C65": "a part that refers back to the handled object is a placeholder; and the conditions on order and reset are needed.",
"C66": "ensure_ascii joins the halves of a surrogate pair that are separate characters.",
"C67": "the dtype of a record array loses the record type; a Series named by a tuple can be written but not read.",
"C69": "a boolean key is spelled true by JSON and True by repr; floats have to be spelled by repr as JSON does (nan and infinity are not); of keys that become one string (1 and '1') numeric_keys=True writes both, encode(x) the second.",
"C70": "the object must not be an element of a tuple in its own state or arguments (C41) and keys=True may leave placeholders (C41); if the state dict is reached before the object (encode(x.__dict__)) the state is lost; a frozen dataclass whose attribute is such an object in the making makes decode raise FrozenInstanceError.",
"C68": "the flag has to fit the document: a text of the current encode read with v1_decode=True is decoded without an error to a graph with other references.",
"C76": "a TypeError of the function inside a tuple, set, iterator or reduced object is swallowed there like any TypeError.",
"C77": "with a backend that sorts keys, warn=True refuses an object with __slots__ (TypeError).",
"C78": "a list or a dict in place of the name raises TypeError instead of AttributeError once there are classes.",
"C81": "beside py/object only the tags behind it in the order are ignored, as the other entries are the attributes and the rest of the state; py/type with the name of a class that is not found gives the object as a dict with all its entries.",
"C83": "errors are not kept: a text that no backend accepted may be accepted by yaml.",
"C84": "the expression also sees the names reprstr, module and evalstr, which stand for the text and its parts.",
"C85": "with unpicklable=True, the default, every array raises NotImplementedError, as the handler passes over the flatten of its base class.",
"C80": "a handler that is registered as an object (as the one for numpy arrays is) and is entered again by another pickler while it works has that pickler as context afterwards; handlers registered as classes do not have this.",
}
REPLACE = {
"C43": ("Sets, tuples and bytearrays come back with copies of their contents at every place, in any sharing; but a set or bytearray shared between two places is two objects after decoding (shown by a theorem named ..._refuted).", "every graph of C01 containing sets, tuples and bytearrays, shared or not"),
}
QUANT = {
"C03": "every finite object graph (any object kinds the model covers, including __reduce__/__getstate__ results), user code that returns, handlers that do not reset the pickler",
"C04": "every input string, every JSON document, every option combination, user code that returns, handlers that restore only parts of their document",
"C10": "every pair of isomorphic graphs whose user code (and repr, where it is written) answers alike; every graph of C01 and its decoded copy",
"C11": "every graph of C01 without custom handlers, every emitted reference",
"C13": "every finite graph without enum members (termination), handlers and user code that write no py/id themselves",
"C14": "every graph without enum members, every n, references on, exceptions of __repr__ contained",
"C15": "every iterator (finite or infinite) without protocols of its own, every n",
"C21": "every graph of lists, dicts with string keys, tuples, sets, classes, plain instances and replaced objects",
"C29": "every graph of C01, every state object graph",
"C30": "every graph of C01; every reduce value whose function is a class or an importable function, whose list and dict items are tuples, and whose parts do not refer back to the object itself",
"C33": "every graph of lists, dicts with string keys, tuples, sets, classes, plain instances and objects encoded as null",
"C40": "every v, every nesting of lists and dicts",
"C49": "every graph of lists, dicts with string keys, tuples, sets, classes and plain instances, some of absent classes",
"C50": "every item sequence that does not lead back to the iterator, iterators without protocols of their own",
"C55": "every graph of C01 of classes with any members with scalar values; every document whose classes are there (keys=False)",
"C56": "every graph of C01 whose dicts, and instances other than the outermost, have ascending keys; every plain tree with any keys; every option setting",
"C57": "every graph of lists, dicts with any keys, tuples, sets, classes and plain instances",
"C58": "every graph without cycles of lists, dicts with string keys, tuples, sets, classes and plain instances, with any sharing",
}
for q in P:
    i = q["id"]
    if i in EXCEPT: q["statement"] += " Exceptions: " + EXCEPT[i]
    if i in REPLACE: q["statement"], q["quantifier"] = REPLACE[i]
    if i in QUANT: q["quantifier"] = QUANT[i]

here = os.path.dirname(os.path.dirname(os.path.abspath(__file__)))
with open(os.path.join(here, "properties.jsonl"), "w") as f:
    for q in P:
        f.write(json.dumps(q) + "\n")
print(len(P))
