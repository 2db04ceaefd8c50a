# Formal model of masonlogan1/socialweb in Coq 8.16.1

Everything is in `rocq/theories/` (logical name `Verif`). No axiom is added anywhere; see *Trusted base*.

## Conventions

* **Models** contain small total Gallina functions, each with a comment citing the `/repo` file and lines it
  models and any simplification. Python exceptions are values of type `exn` inside `res A := Ok a | Err e`;
  stateful methods return `state * res A`, so the *partial effect* of a method that raises is part of the model.
* **`*Facts.v`, `*Thms.v`** and the like hold the proofs. **`Props*.v`** hold the property theorems (`Cxx_…`), each
  followed by `Print Assumptions`, and an `Example Cxx_case…` showing a concrete, non-trivial case that meets the
  hypotheses. The vocabulary of the statements (abstract maps, decoders, grammars, orders) is separate from the
  model's helpers: `SpecMap.v`, `RoundTripSpec.v`, `JsonTextSpec.v` and the definitions at the head of each Props file.
* If the unchanged code violates what one would expect, the violation is a theorem `…_refuted : exists …` with a
  witness, and the guarded statement is proved for all inputs outside the violating case. The English property in
  `properties.jsonl` describes the behaviour the code has, so a claim is `proved` only if both halves are.
* Anything outside the code (network, expansion, clocks, uuid4, iteration order of sets, user callbacks, failing
  commits) is a **parameter** of the model (a Section variable that becomes a universally quantified argument of the
  theorem), so theorems hold for every behaviour of it that meets their explicit hypotheses.

## Properties: model and method

| ids | model | method |
|---|---|---|
| C01-C03 sizing utilities | `Float53` (correctly rounded binary64 division, product, square root on Z), `Utils`, `Fermat`, `Primality` | rounding lemmas; Euclid's theorem for termination; minimality of the returned prime |
| C04, C05 routing | `Base` (code points, UTF-8, big-endian), `Group.get_group_index` | modular arithmetic; pigeonhole for the period of 256 mod n |
| C06-C12 Collection | `BTree` (sorted association list), `Collection` | refinement to a partial map over all op lists; invariants by induction |
| C13-C22 Group | `Group` | refinement through the routing invariant; k-way merge by a merge invariant |
| C23-C30, C32, C33 Container | `Container` (heap of groups, ordered group list, primary) | simulation to a first-group-wins map, induction over moved keys |
| C31, C34 crash points of condense/resize | `ContainerTx` (working state, committed state, trace of commits; any commit may fail) | invariant over every commit point |
| C35-C43, C77, C84-C86 transactions, connection, opening | `Txn`, `Connection`, `Db`, `ConnHistory` | two-copy (working/committed) machine; induction over histories; the outcome of the n-th commit is the oracle `b : nat -> option exn` |
| C44-C46 legacy containers | `Legacy`, `Dict` | refinement; number theory for the exact readability condition |
| C47, C48 group reads | `GroupRead` | induction; every completion order of the threads |
| C49-C52, C78, C79 cluster tools | `Fs` (POSIX tree without symlinks, `..`, permissions), `Cluster` | file system as a finite map; `run` is what executing any other source text does |
| C53-C55 contextual properties | `Context` | heap of property objects; well-nested programs |
| C56-C58 data() | `JsonData` | nested induction over values |
| C59 SetterValidator | `Validate` | nested induction over values |
| C60 timedelta_str | `Duration` | decoder written independently, round trip |
| C61, C62 date-times | `Regex`, `DateTime` | matcher for the regexes; strptime for the formats used |
| C63 validate_url | `Url` | urlsplit model |
| C64, C65, C88 document loader | `DocLoader` | history induction over an arbitrary server |
| C66-C70, C80-C82, C91 cloning, packages, engine | `PyClass` (C3), `Kamino`, `Package`, `Engine` | topological argument on the class graph; finite maps |
| C71, C72 JSON intake | `Intake` | nested induction; JSON-LD expansion an arbitrary oracle with its own state |
| C73-C76, C83, C89 vocabulary | `VocabTables`, `Vocab` (property tables transcribed from models.py) | computation over the finite tables, induction over values |
| C87 JSON round trip | `RoundTrip`, `RoundTripSpec` | induction over object trees |
| C90, C91 conversion on read | `VocabMut` | histories of reads |
| C92, C96 reports | `Account`, `GroupReport` | sums over collections; monotonicity of rounding |
| C97 iterating, indexing | `ObjectRead`, `ObjectReadSpec` | induction over the keys; relation `reads` for the sequence of property reads |
| C98 property lists | `PropCache` on `PyClass`/`Kamino`, `PropCacheSpec` | invariant over histories; MRO transitivity |
| C99 links by hand | `Package` (`link_property`, `remove_property_link`), `PropCache` | case analysis on the records; MRO lookup |
| C100 engine attributes | `Engine` (`set_class_attrs`) | induction over the registry |
| C101 opening a group | `GroupOpen` | relation `opens`; induction over the databases |
| C102 iterating a collection | `CollectionIter` | cases over the two reads |
| C103 managed group | `Managed` | on top of `Cluster.discover`; storage a parameter, ZODB.DB's refusals trusted |
| C104 vocabulary | `As2Spec` (the recommendation), `VocabTables` | `as2_is` an inductive closure of the recommendation's table; decided by a closure computation, then finite tables |
| C105 calls of several connections | `Multi` | world of a committed state and one view per connection, small steps; invariant keeping a replayable list of effects with their times (`MultiHist`) |
| C106 blocks, C107 reads | `Multi` | snapshot of a view; three-way merge per id (`MultiBlocks`); write skew as a computed counterexample |
| C108 maintenance | `Multi` | invariant over the whole heap of groups (`MultiSound`); the groups themselves `MultiMaint`; counterexamples by computation |
| C109 stringify | `Stringify` | nested induction; independent relation `renders` (`StringifyFacts`) |
| C110 shared transaction manager | `Shared` (on `Txn`) | a body on several databases equals the body on their joint state (`SharedFacts`); the move and its crash points `SharedMove` |
| C111 delete by connection | `Connection`, `Txn` | from C27 and the decorator (`SharedMove`) |
| C112 operators without a body | `Unfinished`, `Container` | from C25 |
| C113 sizes of databases | `Unfinished` | induction over the modules |
| C114 request headers | `Unfinished` | induction over the dict; requests' merging as specification |
| C115 JSON grammar | `JsonText`, `JsonGrammar` (grammar as inductive relations) | scanner sound and complete for the grammar, by mutual induction and by fuel |
| C116 changes in place | `InPlace` (contents in memory and on disk, records) | invariants over sessions; without changes: simulation of C42's map |
| C117 storing package objects | `Pickle` (pickle's reference rule) over `Kamino`, `Package`, `Engine` | induction over values; clones are newer than every class modules hold |
| C118 writing shared and cyclic objects | `ObjGraph`: objects in a heap, mentioned by number; `data` with a recursion limit and every object's context manager as state | the managers are put back (simulation by a pure function), monotonicity in the limit, accessibility of the inside-relation iff a result, induction on the unfolded tree (ObjGraphFacts.v). |
| C119 caching loader with several threads | `LoaderThreads`: threads in the four phases of a call over a shared cache and request log, a schedule | inductive invariant, counting potentials, simulation of the one-thread case by C65's function (LoaderThreadsFacts.v). |
| C120 an object's context switched by several threads | `CtxThreads`: any number of threads, arbitrary schedule, with and without interruption inside the methods; with exceptions: `CtxSteps` | invariants: the number of entries above the initial stack is the number of open blocks (stack, known contexts), the bottom one is the first context (restored), all others are c (same); a simulation relation for one thread. |
| C121 module creation and deletion: crashes, concurrent processes | `CrashFs`: one transition per file system call, any number of processes, a schedule | ownership invariant for creators, decreasing entries for deleters, the rest of a delete as a function of the phase (restart) |
| C122 shared cached documents | `LoaderAlias` a_step/a_run (heap of document objects over DocLoader's get) | every object is traced to the load that made it, by induction over the history |
| C123 lists shared between properties and callers | `ListAlias` (heap of list objects, eval = evaluate_value, l_step/l_run) | relation `spells` (value reads as a finite tree through these lists), freshness and separation invariant over histories |
| C124 one connection, several threads | `ConnThreads` (one connection, a transaction and autocommit per thread, the joined thread) | induction on event lists; simulation by the one-thread connection of Txn.v; serial sections; refutations on the container's calls |
| C125 methods of cloned classes | `MethodBind` over `Kamino` (kinds of class members, descriptor binding, wrapping) | attribute resolution by C80; case analysis on members; refutations on an example hierarchy |
| C126 sessions with failing commits | `Session` (C42's operations and block ends, commits with any outcome) | induction on the session against the relation `session`; the relation is shown deterministic |
| C127 group read after sessions | `Session` (`live`, `left_file`, `through`), `Db`, `GroupRead` | C84 gives an empty container, C126 the committed map, C48 the independence of the schedule |
| C128 opening a module by path | `Cluster` (`open_dbmodule`, `dbmodule_create`) | case analysis against `opens`, functional |
| C129 registrations of properties | `PropReg` (`ask_name`, `ask_reg`, `ask_link`, `j_run`) | invariants over histories, caches as growing partial maps |
| C130 attributes of property instances | `PropReg` (`inst_getattr`, `inst_hasattr`, `inst_getattr_default`) | case analysis |
| C131 connections to the past | `PastConn` (`open_at`, `p_run`), composed with `Txn`, `Connection`, `Db` | functional specification of opening; invariants by induction over programs; simulation |
| C132 connections handed out again | `Pool` over `Txn`, `Connection`: the connection in use, its dirty flag, the attribute of idle ones | simulation of the session without a pool, hence C126's `session`; relation `tells`; invariant and last-event induction for closing |
| C133 working on the container by hand | `DirectUse` over `Session`, `Container`, `Connection`: direct write, delete, resize, condense between calls | refinement to a map with a capacity, step by step; determinism and extensionality of the specification |
| C134 changing a group while walking over it | `WalkView`: the generator's place in the group, steps interleaved with operations (`g_step`) | invariant: what was given is all of the collections before the place, and the first items of the one it is in |
| C135 sessions on a strict container | `container_new`, `s_hops`, `k_write`, `k_delete` (`Container.v`, `Session.v`) | refinement of a specification map with `n` collections of `m` places (`StrictFacts.v`), and its determinism |
| C136 transaction log as audit trail | `Audit` (`a_run`, on `LegacyConn`) | invariant over programs: pending changes are named under the current uuid; simulation with `lrun` |
| C137 older container, expanded in between | `LegacyGrow` (`g_step`, `g_run`) over `Legacy`; `LegacyGrowConn` over `LegacyConn` | induction over the program on one slot (container, id) against `visible`, the last call on the id at the same residue; two natural claims refuted |
| C93 strict assignment | `ConnStrict` | history with the attribute outside the transaction |
| C94 CitrineConnection | `LegacyConn` | programs with blocks and handlers |
| C95 JSON text | `JsonText` (CPython's json), `JsonTextSpec` | scanner inverts printer, induction over values |

(C97 and later: see the table rows appended at the end of this section.)

## Trusted base

* **Coq's kernel** (8.16.1), including `vm_compute`. `vcheck` re-checks the compiled files with `coqchk`.
* **`Print Assumptions`** follows every property theorem in the Props files. Each prints *Closed under the global context* except those
  in `PropsFloat.v` that speak of real numbers (`C01_binary64`, `C02_divisors_binary64`, `C03_binary64`, `C12_usage_binary64`,
  `C12_percent_binary64`; also `C01_nothing`, whose proof uses them), which print the standard library's axioms of the reals:
  `ClassicalDedekindReals.sig_forall_dec`, `ClassicalDedekindReals.sig_not_dec`, `FunctionalExtensionality.functional_extensionality_dep`
  and `Classical_Prop.classic`. They say that the integer model of binary64 (`Float53.v`) is Flocq's `round radix2 (FLT_exp (-1074) 53)
  ZnearestE`, so the model's rounding is not trusted; no other theorem depends on them.
  `coqchk`/`vcheck` also list the module fields of `Coq.Reals.Rdefinitions.RbaseSymbolsImpl` and of `Coq.ssr.ssrunder.Under_rel`
  (module-type fields of the ssreflect plugin's `under` tactic, loaded with the standard library's `Lia`/`ssr` files); no
  theorem depends on them. Libraries used: the standard library, and Flocq's definitions in `FloatFacts.v`/`PropsFloat.v`.
* **The transcription** from Python to Gallina, which the citations in the comments make checkable, and the
  seeded-error log (`seeded/LOG.jsonl`), which shows the theorems noticing wrong programs.

### Outside code that is modelled (not from this repository) and what is assumed of it

* BTrees: `OOBTree` as a sorted finite map with the documented bounds semantics; comparison of values as CPython's (ints, strings
  ordered, mixed types raise TypeError).
* `transaction`/ZODB: a working copy and a committed copy; `begin` aborts pending work; a commit either installs the working copy or
  fails and installs nothing. Simplification: after a failed commit the transaction is as after abort. Conflicts between connections
  appear only as failing commits, except in `Multi.v` (C105-C108): there a transaction sees the state committed when it began, a commit
  merges object by object, an object changed on both sides is refused except for BTrees, which are merged key by key, and the storage
  may refuse any commit (so refusals over bucket splits or emptied buckets are covered). `threading.local` managers: one thread per history. `Db.v` models FileStorage/DB/root as used by
  `CitrineDB` (POSKeyError is represented by KeyError).
* `json`: CPython 3.12's pure-Python encoder and decoder (`JsonText.v`), without the recursion and digit limits; `repr(float(text))` is a
  parameter.
* `re`: the fragment used, by a backtracking matcher; `\d` for non-ASCII digits is the parameter `nd`. `datetime.strptime`: CPython 3.12,
  the formats used. `urllib.parse.urlsplit`: as CPython 3.12 with the bracketed-host check as the parameter `netloc_ok`.
* `pyld`: `expand` and link-header parsing are parameters (`expand`, `json_type`, `prepend_base`); `requests`: an arbitrary server.
* Classes: CPython's C3 linearisation, `type()`, `property`, MRO lookup; no metaclasses, no layout conflicts.
* `validate_email`: an arbitrary function. `uuid4`: distinct values. Iteration order of sets: an arbitrary permutation (`props_order`).
* POSIX file system as used by `os`, `shutil`: no symlinks, no `..`, no permissions, no concurrent change; importing does not change files.

### Simplifications by area

* `Container`: arguments are strings and Python values without identity; objects are values (a stored object that is changed later in place is the
  subject of `InPlace`, over the map of C42).
* `Kamino`: property wrappers and callables are arbitrary parameters (`wrap_prop`, `wrap_call`, `package_ref`).
* `Package`/`Engine`: `show` (repr), `none_ref`, `engine_ref` are parameters.
* `Vocab`: object trees without sharing; `email`, `fetch`, `form`, `link_ns`, `ns_text`, `show` are parameters. `VocabMut`: conversion in place
  of plain reads only.
* `RoundTrip`: `understands` says that the expansion recognises the package's types and the registry maps them; C95 discharges the
  assumption that json.loads inverts json.dumps.
* C12/C92 status: sizes and limits up to 2^40 (exactness of binary64 there).

### Not modelled

`jsonld/engine/utils.py` `PROPERTY_TRANSFORM_MAP` (used nowhere) and `citrine/storage/storage.py` `ManagedStorage` (dead: its import fails), logging,
docstrings, tests, packaging, the `__repr__` texts, and wall-clock timing.
