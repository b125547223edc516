# Formal model of jsonpickle — design

The repository `/repo` (jsonpickle, pinned commit) is only read as text.  Everything
below `rocq/theories` is Coq 8.16.1, standard library only.

## 1. Trusted base

* Coq's kernel (and `coqchk`).
* `Print Assumptions` after every property theorem: *Closed under the global context*
  (no axioms; the files import only axiom-free parts of the standard library).
* The reading of the Python source that the model transcribes.  Every model definition
  cites file and lines.  What is modelled is listed in section 2, what is simplified or
  absent in section 3.
* CPython behaviour that jsonpickle calls into (json, base64, dict, set, isinstance, import,
  `__new__`, argument binding): the parts used are written out in the model with the standard
  library source as reference; user code is a parameter over which theorems quantify.

## 2. What is modelled

| file | models |
|---|---|
| `PyStr.v`  | Python `str` as a list of code points; split/join/prefix; decimal printing |
| `Tags.v`   | `jsonpickle/tags.py` |
| `Base.v`   | exceptions, the state-and-exception monad used by all stateful models |
| `B64.v`, `B85.v`, `Utf8.v` | `util.b64encode/b64decode/b85encode/b85decode` with the `binascii`/`base64` algorithms they call; strict UTF-8 |
| `Json.v`, `JsonText.v` | JSON documents; `json.dumps` (default options) and `json.loads` |
| `Writer.v` | `json.dumps` with `indent`, `separators`, `ensure_ascii` (C66) |
| `ExtValues.v` | ext/numpy.py dtype and scalar handlers, ext/pandas.py Series, Timestamp, Period, Interval handlers, ext/gmpy.py (C67) |
| `Heap.v`   | Python object graphs: values, heap objects, instances, classes, the world (imports, user code), hooks (what protocol methods of each object return) |
| `Registry.v` | `handlers.Registry` |
| `LoadClass.v` | `util.loadclass`, `importable_name`, `untranslate_module_name`, `_loadmodule` |
| `Backend.v` | `backend.JSONBackend` (whole class) |
| `Pickler.v` | `pickler.py`: `encode`, `Pickler` (`flatten` and everything below it, `reset`, `_mkref`, `_getref`, `_push/_pop`, every `_flatten_*`) |
| `Unpickler.v` | `unpickler.py`: `decode`, `Unpickler` (`restore` and everything below it, proxies, `_IDProxy`, `getargs`, `loadfactory`, `_restore_*`) |
| `Handlers.v` | the handlers of `handlers.py` for datetime, regex, uuid, array, queue and lock types |
| `Signature.v` | `handlers.handler_accepts_handler_context` with Python's argument binding |
| `Pandas.v`, `DtypeTags.v`, `Frames.v` | run-length and payload helpers of `ext/pandas.py`; `tags_pd.py`; the data frame and index handlers of `ext/pandas.py` |
| `OldFrames.v`, `Yaml.v`, `LoadRepr.v`, `NumpyLists.v` | `restore_v3_3` of `ext/pandas.py`; `ext/yaml.py`; `unpickler.loadrepr`; `UnpickleableNumpyGenericHandler` of `ext/numpy.py` |
| `Numpy.v` | the array handlers of `ext/numpy.py` (by value as text or binary, by reference to a base) |
| `IdReuse.v` | the tables keyed by `id()` against an allocator that reuses addresses |
| `Spec*.v`  | specifications that do not mention the encoder or decoder (object graphs and copies, plain JSON graphs, document shapes, runs) |
| `Prop*.v`  | the property theorems, each followed by `Print Assumptions`, with a concrete case beside it |
| the rest | lemmas |

Exceptions are values; mutations made before an exception stay.  Recursion that is not
structural uses fuel with an explicit outcome `OOF` (out of fuel).  The termination theorems
(C03, C04) show that enough fuel always exists and give the bound; other theorems either
exclude `OOF` in their statement or conclude that the run returns.

The three proof techniques:

1. *Round trip* (C01, C02, C16, C18, C29–C36, C41–C45).  `RTBase`–`RTMain`: an invariant
   relates the encoder's table of numbered objects with the decoder's list of objects (number
   by number, including decoder proxies), and one induction over the nesting depth shows for
   every supported value that encoding does not raise and that decoding the document extends
   the relation and yields a matching value.  `SpecGraph.v` states what is supported (a
   condition on each node reached, without reference to encoder or decoder) and what a copy
   is.  `RTProps.v` reads off the consequences for paths.
2. *Invariants of every run* (C03, C04, C07–C09, C11–C15, C17, C19–C23, C36, C37, C40, C48).
   `PGen.v` (encoder) and `UGen.v` (decoder) are generic: a property of computations that
   holds for the primitive actions and is closed under sequencing, handlers, loops holds of
   every run.  `PTerm`, `PSame`, `PDoc`, `HeapProofs`, `RestoreProofs`, ... instantiate them.
3. *Stand-alone models* (C05, C06, C24–C28, C38, C39, C46, C47, C51, C52, C60–C62, C64, C66) by induction on the input or
   over the history of calls.

## 3. Simplifications, and what is not modelled

Values and heap
* Tuples, frozen values, classes, functions and modules are values without identity; a tuple is
  therefore never "the same object" twice (jsonpickle does number tuples in no table either:
  `_mkref` is called for them only through tuple subclasses).
* A float is its repr token; NaN/Infinity tokens are excluded by `float_ok` where it matters.
* Sets are lists in iteration order; the order is arbitrary but fixed.  Dict iteration is over a
  snapshot; user code does not change the graph while it is being encoded.
* Equality and hash of instances are by identity (also for namedtuples used as keys).
* The value `array.tolist()` returns exists in the heap beforehand (it is a fresh list in Python).

User code
* Protocol methods (`__reduce__`, `__getstate__`, `__getnewargs__`, ...) are functions from the
  object to a result or an exception, without side effects and with the same answer each time.
* `__reduce__` list and dict items come as tuples, not as general iterators.
* Constructors, `__setstate__` and reduce functions are recorded (`i_rec`, `i_state`) with the
  arguments they were called with; instances made by them start with the `__dict__` the world
  gives.  `__setattr__` either works, or raises (`c_setattr`).
* Handlers are scripts that may call back into `flatten`/`restore` with or without reset.
  Termination theorems (C04, C08) assume that handlers restore only parts of the document they
  were given.

Encoder and decoder
* `Pickler.reset`/`Unpickler.reset` and the caller's `context` are modelled; `numeric_keys` is, with the text
  JSON gives numbers as key (keys of one text stand once in the model's document, twice in the code's); `use_decimal`, `include_properties` for containers given raw (outcome `EUnmodelled`), the
  `warn` text itself are not; `indent`/`separators` only for C66 (Writer.v).  Sorting backends are modelled for C56 (Sort.v); elsewhere nothing is sorted.
* Modules carry no handlers or properties.
* `loads` is fuelled by the length of the text.
* Keyword names from `__getnewargs_ex__` are assumed unescaped.
* Python's recursion limit, memory limits, the int/str digit limit, threads, garbage collection
  (except the allocator of C38).
* numpy (apart from C52, C64, C67, C79), pandas (apart from C46, C60–C62, C64, C67, C82), ecdsa, sqlalchemy extensions; the yaml/simplejson
  modules (a backend is an arbitrary oracle in C26–C28, C83).
* Not modelled of these: `NumpyGenericHandler` for scalars that are structured, `UnpickleableNumpyGenericHandler` for scalars;
  intervals only with numbers, strings or None as ends.
* Pandas: the compression module is a pair of functions with `decompress(compress b) = b`.  In `Frames.v` the nested
  calls of encode and decode, `pd.DataFrame(...)` and `astype` are parameters; length checks of pandas are
  left out.  `OldFrames.v` has the columns of `restore_v3_3`, not its index.
* Numpy: numpy itself (strides, contiguity flags, `tobytes`, `copy` in C order, `np.array` of nested lists, byte
  orders) is modelled from its documentation; object and structured dtypes, arrays over bytes or memoryviews and
  the deep copies made for other bases are left out; each item is taken to survive `tolist` and JSON.
* Pandas: a Timestamp stands for its `isoformat()` (a named time zone is only its offset there); the nested encode and
  decode of a Period's start are the Timestamp handler's work followed by the JSON text.
* `tags_pd`: dtype names are strings; `str.isdigit`/`str.lower` are parameters.
* Detect: classes are dictionaries with a method resolution order; metaclasses, `__getattr__` on classes and
  `__slots__` given as a string are not modelled.  The encoder model takes the answers (`c_reduce`, `c_newargs`, ...)
  as class data.
* Signatures are lists of parameters (kind, name, default or not).
* A bytes pattern makes `json.dumps` raise TypeError in the code; in the model the handler raises.
* `int(s, 16)` and `uuid.UUID(hex=s)` are modelled for strings of hexadecimal digits.

Options under which the round trip is stated: `unpicklable=True, make_refs=True,
max_depth=None, include_properties=False, handle_readonly=False`, no sorting, `v1_decode=False`,
`keys` equal on both sides.  The other values of these options have theorems of their own (C12,
C13, C14, C48).

## 4. Disagreements found

Where a statement turned out false of the code as it is, the theorem `..._refuted` gives a concrete object
graph (or document), proved by computation in the model, and the positive theorem beside it states the
hypotheses under which the property holds.  The exceptions have been added to the statement in
`properties.jsonl` (after the word Exceptions), so that the status "proved" is about the statement with its
exceptions; the expectation one would have as a user is the part before that word.

## 5. Property by property

Concrete cases that meet the hypotheses stand beside each theorem as `Example`s; those of C24 (missing names),
C32, C34-C36, C43, C44 and C51 (own methods) are in PropCases.

| id | model | specification and method | theorems in |
|---|---|---|---|
| C01 | Pickler, Unpickler, JsonText | `supported`, `is_copy` (SpecGraph); round-trip induction, plus termination from C03 | PropRoundtrip |
| C02 | same | paths (`pos`, `encoded_path`) into original and copy; corollary of the relation being a bijection | PropRoundtrip |
| C03 | Pickler | `finite_graph`; every run ends within `budget`, by PGen with a measure | PropEncode |
| C04 | Unpickler, JsonText | any text; fuel linear in its length | PropRestore |
| C05, C06 | B64, B85, Pickler, Unpickler | codec induction over byte lists; that the texts are the standard base64 and base85 is stated by bits and by numbers in SpecBase and proved in PropBase | PropCodec, PropBase |
| C07 | Unpickler | `SpecJson`: graph that is the tree of the document; induction on it | PropRestore |
| C08 | Unpickler | log of evaluated code; UGen invariant ; without py/repr the two runs are equal step by step (CongProofs) | PropRestore, PropSafe |
| C09 | Pickler, Unpickler | two runs from different histories are equal (PSame, UGen) | PropRestore, PropEncode |
| C10 | Pickler, Unpickler | two encoder runs on graphs that look alike are equal (SpecIso, PRel); isomorphic graphs, and a graph and its decoded copy, look alike (IsoProofs).  Re-encoding is not claimed for tuple subclasses (`__new__` is not modelled), nor when an escaped string key precedes another string key; then the text changes (refuted) | PropIso |
| C11 | Pickler | SpecRefs reads a document left to right and says which objects have a number; the round-trip induction (RTCont … RTMain) also carries that the encoder's table grows by exactly those, and that each reference is below its length. Instances with custom handlers are excluded: a handler writes what it wants | PropRefs |
| C12, C13 | Pickler | SpecDoc predicates on documents; PDoc | PropEncode |
| C14 | Pickler | jdepth of the document (SpecDepth); induction on remaining levels, one PGen step per level with the depth counter kept below m; for every bound a graph that exceeds it (enum, repr, make_refs=False) | PropDepth |
| C15 | Pickler | items written = first max_iter items; IterProofs | PropOptions |
| C16, C18 | Pickler, Unpickler | `dict_ok`, `order_ok`, `apart` (SpecGraph): keys whose documents differ; part of the round trip; C02 covers sharing through keys | PropRoundtrip, PropKeys, PropLimits |
| C17, C19, C20, C21, C36, C48 | Pickler | SpecRun; PStep, OptionProofs, FailProofs, HeapProofs | PropOptions, PropFail (SpecFail, BalanceProofs) |
| C22, C23 | Unpickler, LoadClass | any document position; MissingProofs | PropRestore, PropLoadClass |
| C24 | LoadClass | importability as hypothesis; induction on the dotted name | PropLoadClass |
| C25 | Registry | specification by history of calls | PropRegistry |
| C26–C28 | Backend | every reachable manager state; backend oracle | PropBackend |
| C29–C32, C34, C35 | Pickler, Unpickler | `inst_facts`: consequences of the round trip at every instance; witnesses for what lies outside | PropRoundtrip, PropState, PropProtocols, PropMisses, PropPrivate |
| C33, C21 | Pickler, Unpickler | SpecHoles (wire format of graphs with replaced objects, without the encoder's functions); HolesProofs, FillProofs, CleanProofs: references before the first replaced object are right. False as stated: witness graphs | PropHoles, PropLimits, PropOptions |
| C49 | Unpickler | false as stated: witness document; true when the instances of absent classes have scalar attributes: induction on the wire format relation of SpecHoles with the two object tables in step (LackProofs) | PropLack, PropLimits |
| C37 | Signature, Pickler, Unpickler | handler call log; simulation of encode/decode with the delivered context | PropContext |
| C38 | IdReuse | all schedules of an allocator that reuses addresses | PropIdReuse |
| C39 | JsonText | `loads (dumps j) = j` by induction | PropCodec |
| C40 | Unpickler | PlainProofs: documents with unusable references inside | PropRestore |
| C41–C44 | Pickler, Unpickler | consequences of the round trip; witnesses for the rest | PropLimits, PropMisses, PropRoundtrip |
| C45 | Handlers, Pickler, Unpickler | `handled` shape of the round trip, shown for each built-in handler | PropRoundtrip, PropHandlers |
| C46 | Pandas, Utf8, B64 | induction on the list; codec composition | PropPandas |
| C47 | DtypeTags | induction on the list of names | PropDtypeTags |
| C50 | Pickler, Unpickler | SpecIter: what an iterator yields, parts of the heap that refer to nothing outside. The run over the iterator is related (PRel) to the run over a list of its items, which round-trips (IterRT); one entry in the tables of both sides. A second reference to the iterator becomes a list (refuted) | PropIter |
| C51 | Detect | SpecDetect: Python's rule for the first definition in the method resolution order, and what pickle runs; induction on the order | PropDetect |
| C52 | Numpy, B64 | SpecNumpy: an array is a window on memory, same items at every index in bounds; induction on the shape (positions of items in C and Fortran order). Refuted: 0-d arrays in text form, views of large Fortran-order bases, views of large bases in foreign byte order, native views of single-byte bases | PropNumpy |
| C53 | Pickler | SpecJson `tree` and SpecPlain `plain_keys`; induction on the tree with the state of the pickler (numbers, cache, depth) | PropPlain |
| C54 | Unpickler (event EvRaise: user code raised) | SpecErr; UGen with the closure property "the log ends with the exception that is the result" (ErrProofs) | PropErr |
| C55 | Pickler `flatten_properties`, Unpickler | SpecProps: `with_props` relates a document to the one with py/property entries added; both runs of the decoder are compared step by step (PropsProofs), the encoder writes related documents (PropsEncode) | PropProps |
| C56 | Pickler `sort_attrs`, Sort.v: `jsort` (json.dumps with sort_keys), `encode_sorted` | SpecSort: `sortable` documents, graphs with ascending keys; the sorted document is an `alike` one for the decoder (PropsProofs, SortProofs), plain trees via C07 and C53 | PropSort |
| C57 | Pickler `flatten_key_value_pair`, `flatten_items`, Unpickler | SpecKeys: `keys_as` relates two graphs whose keys become the same strings, apart from entries that are not written; both have the same document (HolesProofs `all_go_as`), which C49 decodes | PropCoerce |
| C58 | Pickler `flatten_step` (the cache), `in_cycle`, `ref_obj_instance`, `mkref` | SpecUnfold: `spelled` (documents without references), `acyclic`, `unfolded` (same data, one object for each occurrence); UnfoldProofs: what is cached is right, what is numbered and not cached is being written and has a deeper document; UnfoldDecode: such a document is the document of an unfolded graph, which C49 decodes | PropUnfold |
| C59 | Pickler `reduce_of`, `flatten_reduce_tuple`, `flatten_reduce_str`; Unpickler `restore_reduce`, `reduce_make`, `swapref`; worlds in which calling a class gives an object that exists (`CVal`) | SpecHoles: `by_call`, a kind of `hole`; SpecLack: `member`, `with_members`, `copy_with_members`; LackProofs is done for graphs with members, C49 is the case without | PropMember |
| C60 | Frames.v: PandasDfHandler; Pandas.v, DtypeTags.v | the loops over the columns are shown equal to maps over the columns (distinct labels), the codes go through C46 and C47 | PropFrames |
| C61 | Frames.v: PandasIndexHandler, PandasMultiIndexHandler | computation, with C46 for the payload | PropFrames |
| C62 | DtypeTags.v | the loop that gives out tags does not touch the names done before; C47 for the reverse map; witnesses for other orders | PropFrames |
| C63 | Session.v: encode and decode with a context and reset given; Pickler, Unpickler | SessionProofs: between successful calls the Pickler holds nothing that later calls see (`quiet`), with C01 for each call; witnesses for the wrong cases | PropSession |
| C64 | Ext.v: register_handlers and unregister_handlers of ext/numpy, ext/pandas, ext/gmpy; Registry.v | ExtProofs: the tables after the block are the old tables with further entries at the end (`more`), the removals take those away; C25 for the histories | PropExt |
| C65 | Pickler (handlers as scripts of context.flatten calls), Unpickler (scripts of context.restore calls) | the relation of C01 between originals and copies holds at the parts of handled instances; witnesses for handlers that break the rules | PropCustom |
| C66 | Writer.v: `json.dumps` with indent, separators, ensure_ascii; JsonText, Unpickler | SpecText: grammar of the texts of a document; TextProofs: mutual induction over it for the reader, WriterProofs: the writer stays in it; with C01 | PropText |
| C67 | ExtValues.v: flatten/restore of the dtype, scalar, Series, Timestamp, Period, Interval and mpz handlers as scripts; Pandas.v for the processor | each handler meets the condition on handlers of C01 (SpecGraph.handled), so C01 gives the copies and C65 the sharing; witnesses for the exceptions | PropExtValues |
| C68 | Unpickler.v as it is (uo_v1); SpecV1.v: the version 1 form of a document, by its own definition | induction over the pair of documents: both runs in step, the two tables of objects related by leaving out the dicts; C49 for graphs; witness for the exception | V1Proofs, PropV1 |
| C69 | Pickler `key_string` with `po_numeric` | the two runs in step (PRel, as for C10) from the same graph; witness for booleans | PropNumeric |
| C70 | Pickler `flatten_reduce_tuple`, Unpickler `restore_reduce`, `swapref`, `swap_proxies` | SpecBack: `leads`, `back_graph` (which parts may lead back, the state dict belongs to its object).  BackProofs: each number of the table is open (placeholder) or done; a run of the decoder from any table keeps every placeholder stored noted in the list of replacements; then each replacement removes one.  BackTrip: induction on the objects not yet numbered, for encoder and decoder together | PropBack |
| C71 | Unpickler (all of `restore`), LoadClass | SpecNames: `dotted_in`, `value_in`, `agree_on`, `told_by`.  UGen carries, with every event, the object of the document that names it (`named`); CongProofs: `restore_step` depends on its recursive calls only at sub-documents, so induction on the fuel compares two worlds and two amounts of fuel | PropNames |
| C72 | Unpickler: lists, tuples, sets, dicts, bytes, ids, iterators, py/reduce | SpecTame: `data`, `only_data`.  TameProofs: Hoare triples over an invariant of heap, table, placeholders and replacements; `reduce_make` cannot find a callable | PropNames |
| C73 | Registry, Pickler `flatten_obj_instance`, Unpickler `restore_object` | SpecScope: `elsewhere` (which calls concern a class or name).  RegSim, RegCong: two runs with two registries in step; the classes of instances in the heap and the classes argument do not change during a run; for the graph alone from C74 with everything else erased | PropScope, PropElse |
| C74 | Pickler | SpecIter: `self_contained`, `inside`.  The relation of C10 with the identity on the graph | PropElse |
| C75 | Unpickler `set_plain_attr` | SpecReadonly.  ReadonlyCong: two runs in step until the first raises AttributeError | PropReadonly |
| C76 | Unpickler `process_missing` | SpecMissing (set_missing, may_raise, quiet).  MissCong: two runs in states equal up to reports, until the second raises an exception of the policy; catch sites around parts catch TypeError only | PropMissing |
| C77 | Pickler `pickle_warning`, `flatten_items` | SpecOptions (set_kw, usual_key).  OptSim: two encoders in step, states equal up to the warnings given, usual keys kept as invariant of the heap; the graph version through C74 | PropKeysWarn |
| C78 | Unpickler `u_loadclass`, `unpickle`, LoadClass `from_classes` | SpecFurther (sought: a dotted name of the document or its last component; no_containers; given; same_run).  ClsCong: two decoders in step, states equal up to the table of classes | PropFurther |
| C79 | Ufunc `ufunc_flat`, `ufunc_rest` (ext/numpy.py:453-461), Unpickler `restore_object`, LoadClass | SpecUfunc (nowhere, comes_back).  UfuncProofs: the documents of the elements (`udocs`), one induction for the encoder and one for the decoder | PropUfunc |
| C80 | Reentry `enter`, `run_act`, `run_calls` (handlers.py:129-138, 172-179): the context of the handler objects only | SpecReentry (inside, undisturbed, right_context).  Induction over the trees of calls | PropReentry |
| C81 | Unpickler `restore_step` (unpickler.py:375-384, 958-1003) and the restore functions it chooses from | SpecTagOrder (ranked, counts, fewer).  One step for each tag, then induction over the fuel with equality of the loops element by element; inside instances (SpecTagPlaces) by the relation between documents of C55 and C56 with one more case (PropsProofs `al_step`) | PropTagOrder, PropTagPlaces |
| C82 | OldFrames `make_read_csv_params`, `restore_v3_3` (ext/pandas.py:113-148, 319-335); pandas as functions on one column | SpecOldFrames (one_column).  Induction over the dtypes from the end, for the tables, and over the list of updates | PropOldFrames |
| C83 | Yaml `register_yaml` (ext/yaml.py:10-16) over Backend `load_backend`, `bencode`, `bdecode` | PropYaml (made: the calls of one operation; enc_call, dec_call, stored of C26/C28).  The first backend that does not fall through is the same in both lists, by induction over the lists | PropYaml |
| C84 | LoadRepr `localname`, `loadrepr` (unpickler.py:262-281); Unpickler `restore_repr` (621-623) | PropLoadRepr (first_part, means; number of slashes by count_occ).  Induction over the text for the number of fields of split | PropLoadRepr |
| C85 | NumpyLists `super_flatten`, `listed_json`, `flatten_lists` (ext/numpy.py:86-100, handlers.py:140-149) over Numpy `tolist` | PropNumpyLists (at_: places in nested lists), SpecNumpy (item, same_items, well_placed).  Induction over the shape | PropNumpyLists |
