{"id": "C01", "title": "Collection count is minimal, sufficient and has no divisors", "statement": "number_of_collections(capacity, max_collection_size) returns the smallest integer n >= ceil(capacity / max_collection_size) that has no divisor d with 1 < d < n; hence n * max_collection_size >= capacity (the group it sizes can hold the requested capacity), and the search always terminates. The answer is a genuine prime whenever it is at least 2 (for a single collection it is 1).", "quantifier": "every capacity and max_collection_size with 1 <= capacity < 2^53 and 1 <= max_collection_size <= 2^53 (the range where Python's float division cannot lose a unit) whose ratio is at most 2^52 - 47 collections", "why_tests_cant": "the input space is all pairs of integers; the float division, float square root and unbounded prime search each need an argument over all values, including termination", "anchors": ["citrine/storage/utils.py:number_of_collections", "citrine/storage/utils.py:get_primes", "citrine/storage/utils.py:is_prime"]}
{"id": "C02", "title": "is_prime decides primality", "statement": "is_prime(n) is True exactly when n has no divisor d with 1 < d < n; in particular for n >= 2 it is True iff n is prime.", "quantifier": "every integer 0 <= n < 2^52", "why_tests_cant": "unbounded input domain; correctness of stopping at int(sqrt(n)) computed in floating point is a mathematical fact about all n", "anchors": ["citrine/storage/utils.py:is_prime"]}
{"id": "C03", "title": "Growth sizing grows by at least half", "statement": "next_number_of_collections(current, mcs) returns the smallest n without proper divisors with n >= ceil(ceil(1.5*current)/mcs), so n*mcs >= 1.5*current.", "quantifier": "every current size 1 <= current <= 2^51 and 1 <= mcs <= 2^53 needing at most 2^52 - 47 collections", "why_tests_cant": "unbounded input domain and float rounding", "anchors": ["citrine/storage/utils.py:next_number_of_collections"]}
{"id": "C04", "title": "Every id routes to exactly one existing collection, as a function of the id and the number of collections only", "statement": "For any group with n >= 1 collections, every string that can be UTF-8 encoded is routed to one index 0 <= i < n computed as the big-endian integer of its UTF-8 bytes mod n; every keyed operation (get, insert, pop, setdefault, has_key, update) on that id touches only that collection; a string with a lone surrogate raises UnicodeEncodeError and changes nothing.", "quantifier": "all strings (any length, any code points) and all group sizes", "why_tests_cant": "infinitely many strings; the frame condition ('touches only') ranges over all group states", "anchors": ["citrine/storage/group.py:get_group_index", "citrine/storage/group.py:groupfn"]}
{"id": "C05", "title": "With a prime number of collections no collection is unreachable", "statement": "If the number of collections is prime (or odd), then for every collection index there is an id (made only of the letters a and b) that is routed to it. With a non-prime count this can fail: with 256 collections no string is ever routed to collections 192..255.", "quantifier": "all primes n and all indices i < n; all strings for the counterexample", "why_tests_cant": "an existence claim for every prime and a non-existence claim over every string cannot be sampled", "anchors": ["citrine/storage/group.py:get_group_index", "citrine/storage/group.py:Group.new (docstring)", "citrine/storage/utils.py:number_of_collections"]}
{"id": "C06", "title": "A Collection behaves like an ordered map", "statement": "Starting from an empty Collection, after any sequence of insert/update/pop/popitem/setdefault/clear calls, get/has_key/keys/values/items/size agree with a plain key->value map on which the same calls were made: insert on an existing key returns 0 and keeps the old value, insert on a new key returns 1, update overwrites, pop removes and returns, a call that raises changes nothing.", "quantifier": "all operation sequences, keys and values", "why_tests_cant": "histories are unbounded; tests only exercise a handful of sequences", "anchors": ["citrine/storage/collection.py:Collection"]}
{"id": "C07", "title": "Strict capacity of a Collection", "statement": "In strict mode, any sequence of insert/update/pop/popitem/clear keeps size <= max_size; an operation that would exceed it raises CollectionCapacityError and leaves the collection unchanged. setdefault is not checked, so with setdefault the bound can be broken.", "quantifier": "all operation sequences from an empty strict collection, all max_size >= 1", "why_tests_cant": "an invariant over all reachable states", "anchors": ["citrine/storage/collection.py:Collection.insert", "citrine/storage/collection.py:Collection.update", "citrine/storage/collection.py:Collection.setdefault"]}
{"id": "C08", "title": "A full strict Collection rejects even a no-op insert", "statement": "On a strict collection with size >= max_size, insert raises CollectionCapacityError for every key, including keys already present; on any other collection insert never raises.", "quantifier": "all reachable collections and keys", "why_tests_cant": "decision rule over all states", "anchors": ["citrine/storage/collection.py:Collection.insert"]}
{"id": "C09", "title": "Collection range iteration is exact and ordered", "statement": "iteritems(min,max) yields exactly the stored pairs with min <= key <= max (a missing bound is unbounded), each once, in strictly ascending key order; iterkeys and itervalues yield their projections.", "quantifier": "all reachable collections, all bounds", "why_tests_cant": "all contents and bounds", "anchors": ["citrine/storage/collection.py:Collection.iteritems", "citrine/storage/collection.py:Collection.iterkeys", "citrine/storage/collection.py:Collection.itervalues"]}
{"id": "C10", "title": "Collection minKey/maxKey are the extreme keys", "statement": "minKey(min) returns the least stored key >= min and maxKey(max) the greatest stored key <= max; each raises ValueError exactly when no stored key is in the bound.", "quantifier": "all reachable collections and bounds", "why_tests_cant": "all contents and bounds", "anchors": ["citrine/storage/collection.py:Collection.minKey", "citrine/storage/collection.py:Collection.maxKey"]}
{"id": "C11", "title": "Collection pop semantics", "statement": "pop(key) on a stored key removes exactly that key and returns its value; on a missing key it returns the default if that is not None, else raises KeyError; nothing else changes. popitem removes and returns the smallest key.", "quantifier": "all reachable collections, keys and defaults", "why_tests_cant": "all states", "anchors": ["citrine/storage/collection.py:Collection.pop", "citrine/storage/collection.py:Collection.popitem"]}
{"id": "C12", "title": "Status thresholds are exact despite float arithmetic", "statement": "status is one of 0,60,70,80,90; for each level L in {60,70,80,90}, status >= L iff 100*size > (L-1)*max_size; so status never decreases when size grows, and an empty collection reports 0.", "quantifier": "every size and max_size with 0 <= size <= 2^40 and 1 <= max_size <= 2^40", "why_tests_cant": "float rounding of size/max_size*100 has to be controlled for every pair of integers", "anchors": ["citrine/storage/collection.py:CollectionMeta.status", "citrine/storage/collection.py:CollectionMeta.usage"]}
{"id": "C13", "title": "A Group behaves like one map", "statement": "Starting from a freshly created Group, after any sequence of insert/update/pop/setdefault/clear calls, get/has_key agree with a single key->value map to which the successful calls were applied; insert never replaces an existing value; keys(), values() and items() list each stored key exactly once and size equals the number of distinct keys.", "quantifier": "all operation sequences, keys, values, and group shapes", "why_tests_cant": "histories are unbounded; partitioning by hash must be invisible for every id", "anchors": ["citrine/storage/group.py:Group"]}
{"id": "C14", "title": "Strict capacity of a Group", "statement": "If every collection in a group is strict, any sequence of insert/update/pop/clear keeps size <= max_size and every collection within its own max_size; inserting a new key into a full strict group raises GroupCapacityError and changes nothing.", "quantifier": "all operation sequences and group shapes", "why_tests_cant": "invariant over reachable states", "anchors": ["citrine/storage/group.py:Group.insert", "citrine/storage/group.py:Group.update"]}
{"id": "C15", "title": "A strict Group can refuse a key while it still has free space", "statement": "Because keys are routed by hash, a strict group whose size is below max_size can still raise CollectionCapacityError for a new key: there are reachable states where free capacity remains but an insert is refused. An insert into a strict group succeeds iff the collection its key routes to has free space.", "quantifier": "all reachable group states and keys", "why_tests_cant": "needs the exact success condition for all states", "anchors": ["citrine/storage/group.py:Group.insert"]}
{"id": "C16", "title": "Group.update is all-or-nothing unless a single collection overflows", "statement": "Group.update(d) on a non-strict group, or on a strict group where every collection has room for its share, leaves exactly old-map overridden by d. A raised GroupCapacityError changes nothing. But when one collection of a strict group overflows, CollectionCapacityError is raised after earlier collections were already updated (partial application).", "quantifier": "all groups and all update dictionaries", "why_tests_cant": "all states and inputs; partial effect depends on the split", "anchors": ["citrine/storage/group.py:Group.update"]}
{"id": "C17", "title": "Group.iterkeys / iteritems merge in order", "statement": "iterkeys(min,max) and iteritems(min,max) on a group yield exactly the stored keys/pairs within the bounds, each once, in ascending order - except that when the empty-string id is stored within the bounds and every in-bounds id is routed to the first collection, they silently yield nothing.", "quantifier": "all reachable groups and bounds", "why_tests_cant": "correctness of a k-way merge over every partition of every key set", "anchors": ["citrine/storage/group.py:Group.iterkeys", "citrine/storage/group.py:Group.iteritems"]}
{"id": "C18", "title": "Group.itervalues yields every value", "statement": "itervalues(min,max) yields every stored value whose key is in bounds exactly once (as a multiset) when all stored values are truthy and mutually comparable. With falsy values (0, '', None, False) it can stop early and lose values, and with two unorderable objects in different collections it raises TypeError.", "quantifier": "all reachable groups", "why_tests_cant": "all contents and partitions", "anchors": ["citrine/storage/group.py:Group.itervalues"]}
{"id": "C19", "title": "Group.minKey/maxKey/popitem", "statement": "When every collection of the group has a key in bounds, minKey/maxKey return the least/greatest stored key in bounds and popitem removes and returns the least key with its value. When some collection is empty (even though the group is not), minKey, maxKey and popitem raise ValueError.", "quantifier": "all reachable groups and bounds", "why_tests_cant": "all contents and partitions", "anchors": ["citrine/storage/group.py:Group.minKey", "citrine/storage/group.py:Group.maxKey", "citrine/storage/group.py:Group.popitem"]}
{"id": "C20", "title": "Group.byValue is a complete descending listing", "statement": "byValue(min) yields, for every stored pair whose value is >= min, (value, key), exactly once, in descending (value,key) order.", "quantifier": "all reachable groups with comparable values and all bounds", "why_tests_cant": "all contents and partitions", "anchors": ["citrine/storage/group.py:Group.byValue", "citrine/storage/collection.py:Collection.byValue"]}
{"id": "C21", "title": "Group.new builds the promised shape", "statement": "Group.new(size, mcs) gives exactly size empty collections each with max_size mcs and rejects size 0/None or mcs <= 0 with ValueError. With a custom mapping it yields the custom sizes at their indices and mcs in every gap below size, raising KeyError for keys above size and ValueError for sizes <= 0. The strict argument is ignored: the resulting group is never strict.", "quantifier": "all sizes, limits and custom mappings", "why_tests_cant": "all mappings", "anchors": ["citrine/storage/group.py:Group.new", "citrine/storage/group.py:Group.__init__"]}
{"id": "C22", "title": "Group strict flag", "statement": "Setting strict on a group sets it on every collection, a non-boolean raises TypeError and changes nothing, and strict reads True iff every collection is strict; max_size/size are sums and status is the maximum status over collections.", "quantifier": "all groups", "why_tests_cant": "all states", "anchors": ["citrine/storage/group.py:Group.strict", "citrine/storage/group.py:GroupMeta"]}
{"id": "C23", "title": "Container.new provides the requested capacity", "statement": "Container.new(capacity, mcs, strict) returns an empty container with capacity() >= capacity, a single group which is the primary, all collections of equal size, and the requested strictness; capacity 0 raises ValueError.", "quantifier": "all capacities in 1..2^53-1 and limits in 1..2^53 needing at most 2^52 - 47 collections", "why_tests_cant": "arithmetic over all inputs", "anchors": ["citrine/storage/container.py:Container.new"]}
{"id": "C24", "title": "Container read-your-writes", "statement": "After a successful write(id, v) with v truthy, read(id) returns v and has(id) >= 1, and reads of every other id are unchanged. For a falsy v (0, '', None, False, empty list) read(id) returns the default (or an older value from a secondary group) although has(id) reports it.", "quantifier": "all reachable containers (any number of groups), ids and values", "why_tests_cant": "all states and values", "anchors": ["citrine/storage/container.py:Container.write", "citrine/storage/container.py:Container.read"]}
{"id": "C25", "title": "Container read precedence", "statement": "read(id) returns the first truthy value found scanning groups in order, has(id) counts the groups holding id, neither changes state; read on an id no group holds returns the default.", "quantifier": "all containers", "why_tests_cant": "all group lists", "anchors": ["citrine/storage/container.py:Container.read", "citrine/storage/container.py:Container.has"]}
{"id": "C26", "title": "Container.write outcome", "statement": "write(id, v) stores v in the primary group only; it returns 1 for a new id and None when replacing. It raises iff the primary group refuses; in a strict container whose target collection is full, even overwriting an existing id is refused, and a failed write changes nothing.", "quantifier": "all containers, ids, values", "why_tests_cant": "all states", "anchors": ["citrine/storage/container.py:Container.write"]}
{"id": "C27", "title": "Container.delete removes everywhere or fails part-way", "statement": "delete(id) on an id no group holds returns () and changes nothing. If the groups holding the id form a prefix of the group list, delete returns one value per holding group in order and afterwards has(id)=0 and every other id is untouched. Otherwise delete raises KeyError, possibly after removing the id from some groups.", "quantifier": "all containers and ids", "why_tests_cant": "all group lists; partial effects", "anchors": ["citrine/storage/container.py:Container.delete"]}
{"id": "C28", "title": "condense preserves what can be read", "statement": "On a container whose primary is non-strict and first in the group list, condense(transfer=True) leaves a single group from which, for every id, exactly the value of the first group holding it can be obtained; reads of every id return the same before and after (for truthy values); the removed secondary groups are returned and are empty.", "quantifier": "all containers with any number of groups and contents", "why_tests_cant": "an induction over all keys of all groups", "anchors": ["citrine/storage/container.py:Container.condense"]}
{"id": "C29", "title": "condense without transfer copies", "statement": "condense(transfer=False) leaves every secondary group unchanged and in place, returns [], and the primary then holds every id that any group holds with first-group-wins values.", "quantifier": "all containers with non-strict primary first", "why_tests_cant": "induction over all contents", "anchors": ["citrine/storage/container.py:Container.condense"]}
{"id": "C30", "title": "condense on a strict primary can lose an object", "statement": "When the primary is strict and fills up, condense(transfer=True) without a transaction manager raises after having popped the current object from its secondary group: that object is then held by no group. All other objects are still held somewhere.", "quantifier": "all containers", "why_tests_cant": "needs the exact partial effect at every possible failure point", "anchors": ["citrine/storage/container.py:Container.condense"]}
{"id": "C31", "title": "condense with a transaction manager is crash-safe", "statement": "With a transaction manager, condense commits once per moved object; in every committed (durable) state every id held before is still held by some group, with its first-group-wins value, and an exception during a move rolls back to the last committed state so nothing is lost.", "quantifier": "every crash point and every failure point", "why_tests_cant": "crash points are unbounded; every prefix of the commit sequence has to be safe", "anchors": ["citrine/storage/container.py:Container.condense", "citrine/storage/transaction.py:TransactionManager"]}
{"id": "C32", "title": "resize keeps every object readable", "statement": "resize(capacity, mcs) without a transaction manager on a container whose primary is first: afterwards capacity() >= capacity, for every id has(id)>0 iff it was before, read(id) is unchanged (truthy values), the new primary is first in the group list and non-primary secondaries keep their order and contents; with transfer=True the old primary is removed and returned.", "quantifier": "all containers; capacities in 1..2^53-1 and limits in 1..2^53 needing at most 2^52 - 47 collections", "why_tests_cant": "induction over contents and group lists", "anchors": ["citrine/storage/container.py:Container.resize"]}
{"id": "C33", "title": "resize drops strictness", "statement": "After resize the container's strict flag is False even when it was True before.", "quantifier": "all containers and arguments for which resize succeeds", "why_tests_cant": "all states", "anchors": ["citrine/storage/container.py:Container.resize", "citrine/storage/group.py:Group.new"]}
{"id": "C34", "title": "resize with a transaction manager and further secondaries", "statement": "With a transaction manager, condense=False and at least one group besides the primary, resize durably drops the remaining secondary groups: the committed state after resize holds only the new primary, so ids held only by them are lost if the process stops before a further commit.", "quantifier": "all crash points after resize", "why_tests_cant": "crash-point reasoning", "anchors": ["citrine/storage/container.py:Container.resize", "citrine/storage/container.py:Container.condense"]}
{"id": "C35", "title": "Autocommitted operations are atomic and durable", "statement": "With autocommit on and no enclosing block, create/update/delete on a ContainerConnection either return normally and the committed state equals the working state, or raise and both the committed and the working state equal the last committed state.", "quantifier": "all states, operations and failure points", "why_tests_cant": "all failure points", "anchors": ["citrine/connection/container_connection.py:ContainerConnection", "citrine/storage/transaction.py:autocommit", "citrine/storage/transaction.py:TransactionManager.__exit__"]}
{"id": "C36", "title": "Transaction blocks are all-or-nothing", "statement": "Operations inside 'with conn:' become durable together: if the body raises, committed and working state equal the state committed at block entry; if it finishes, the committed state is the result of all operations in order; at every point inside the block the committed state is the one at entry (a crash loses exactly the block).", "quantifier": "all operation sequences and all crash/exception points in the block", "why_tests_cant": "all schedules of failure", "anchors": ["citrine/connection/container_connection.py:ContainerConnection.__enter__", "citrine/connection/container_connection.py:ContainerConnection.__exit__", "citrine/storage/transaction.py:TransactionManager"]}
{"id": "C37", "title": "Autocommit is restored after a block", "statement": "After leaving a 'with conn:' block, normally or by exception, autocommit is on again, for every body; assigning a non-boolean to autocommit raises TypeError and changes nothing.", "quantifier": "all bodies", "why_tests_cant": "all bodies and exits", "anchors": ["citrine/connection/container_connection.py:ContainerConnection.__exit__", "citrine/connection/container_connection.py:autocommit"]}
{"id": "C38", "title": "Nested blocks are not nested transactions", "statement": "Entering a second 'with conn:' block inside a first one discards all uncommitted work of the outer block, and after the inner block ends the rest of the outer body runs with autocommit on.", "quantifier": "all bodies", "why_tests_cant": "schedules of operations", "anchors": ["citrine/connection/container_connection.py:ContainerConnection.__enter__", "citrine/storage/transaction.py:TransactionManager.__enter__"]}
{"id": "C39", "title": "The autocommit=False constructor argument does not disable autocommit", "statement": "A ContainerConnection built with autocommit=False still commits each create/update/delete on its own (the flag is stored but the transaction manager decides); only assigning conn.autocommit = False turns it off.", "quantifier": "all states and operations", "why_tests_cant": "all operations", "anchors": ["citrine/connection/container_connection.py:ContainerConnection.__init__", "citrine/storage/transaction.py:autocommit"]}
{"id": "C40", "title": "create never overwrites", "statement": "create(id, obj) on an id that any group holds raises ObjectOverwriteError and leaves working and committed state as last committed; on a fresh id it stores the object; so across any history of creates each id keeps the first object created.", "quantifier": "all histories", "why_tests_cant": "histories", "anchors": ["citrine/connection/container_connection.py:ContainerConnection.create"]}
{"id": "C41", "title": "update returns the previous value and upserts", "statement": "update(id, obj) returns read(id) as it was before (None if absent or falsy) and afterwards the primary holds obj at id; other ids unchanged.", "quantifier": "all states, ids, values", "why_tests_cant": "all states", "anchors": ["citrine/connection/container_connection.py:ContainerConnection.update"]}
{"id": "C42", "title": "A connection history behaves like a map", "statement": "For a connection to a fresh single-group non-strict container, any sequence of create/update/delete with truthy objects, reads and reopenings (losing uncommitted work) gives exactly the results of a key->value map: create fails iff present, update returns old value, delete returns the removed value (or an empty tuple), read returns the current value or default.", "quantifier": "all histories of operations", "why_tests_cant": "unbounded histories", "anchors": ["citrine/connection/container_connection.py:ContainerConnection", "citrine/storage/container.py:Container"]}
{"id": "C43", "title": "Indexing a connection", "statement": "conn[id] returns read(id) when the id is held and raises KeyError otherwise; conn[[ids]] returns one result per id in order, raising KeyError iff every result is falsy; other index types raise IndexError; none changes state.", "quantifier": "all states and index lists", "why_tests_cant": "all lists", "anchors": ["citrine/connection/container_connection.py:ContainerConnection.__getitem__"]}
{"id": "C44", "title": "Legacy DbContainer behaves like a map at fixed size", "statement": "For a fixed number of containers, any sequence of write/delete/read/has behaves like a map (write overwrites, read of a missing id is None, delete of a missing id raises KeyError and changes nothing); size is the number of distinct ids.", "quantifier": "all histories, any number of containers", "why_tests_cant": "unbounded histories", "anchors": ["citrine/persistence.py:DbContainer"]}
{"id": "C45", "title": "expand_size does not rehash", "statement": "expand_size(n) raises ValueError and changes nothing unless n exceeds the current count; otherwise it keeps the size and all stored data but an object written before stays readable iff its hash has the same residue modulo the old and the new count; other ids become unreadable (read gives None) and a re-write creates a duplicate.", "quantifier": "all containers, ids and sizes", "why_tests_cant": "needs the exact condition over all ids", "anchors": ["citrine/persistence.py:DbContainer.expand_size"]}
{"id": "C46", "title": "expand_containers is transactional", "statement": "CitrineConnection.expand_containers(k) with k >= 1 adds exactly k containers and commits; with k <= 0 it raises ValueError, and working and committed states both equal the last committed state.", "quantifier": "all states and k", "why_tests_cant": "all states", "anchors": ["citrine/connection/connection.py:CitrineConnection.expand_containers"]}
{"id": "C47", "title": "Group read returns the first hit and never reports duplicates", "statement": "GroupReadConnection.read(id) returns the first non-None result in connection order, or None when there is none; an id present in several databases is never reported as an error; multiple=True raises AttributeError whenever there is at least one connection; any truthy timeout raises TypeError.", "quantifier": "all numbers of connections and contents", "why_tests_cant": "all contents and task completion orders", "anchors": ["citrine/connection/group_connection.py:GroupReadConnection.read"]}
{"id": "C48", "title": "GroupRead result is independent of task scheduling", "statement": "The value returned by GroupReadConnection.read does not depend on the order in which the per-database read tasks are completed.", "quantifier": "every completion order (permutation) of the tasks", "why_tests_cant": "schedules", "anchors": ["citrine/connection/group_connection.py:GroupReadConnection.__read"]}
{"id": "C49", "title": "create_dbmodule never clobbers", "statement": "create_dbmodule(path, name) on an existing path raises (IOError without overwrite, FileExistsError with it) and changes no file; on a fresh path it creates exactly one directory containing exactly one __init__.py and nothing else changes.", "quantifier": "all file-system states", "why_tests_cant": "all file systems", "anchors": ["citrine/cluster_tools/dbmodule/dbmodule.py:create_dbmodule"]}
{"id": "C50", "title": "delete_dbmodule removes only its own files", "statement": "delete_dbmodule(path) removes only regular files directly in path whose name is __init__.py or starts with the directory's name, removes the directory iff it is then empty (and remove_empty), and touches nothing else; but if the path ends in '/', the computed name is empty and every regular file in the directory is deleted.", "quantifier": "all file-system states", "why_tests_cant": "all file systems", "anchors": ["citrine/cluster_tools/dbmodule/dbmodule.py:delete_dbmodule"]}
{"id": "C51", "title": "Discovered modules and explicit modules merge", "statement": "DbGroup.modules is the union of discovered modules and explicitly supplied ones, explicit entries winning on equal names; is_path_dbmodule never raises.", "quantifier": "all directories and module maps", "why_tests_cant": "all inputs", "anchors": ["citrine/cluster_tools/dbmodule/dbgroup.py:DbGroup", "citrine/cluster_tools/dbmodule/dbmodule.py:is_path_dbmodule"]}
{"id": "C52", "title": "Cluster registry is a map", "statement": "ClusterRegistryContainer write/read/has/delete behave like a map from module name to registry entry; delete of a missing id raises KeyError and changes nothing; expand_size changes nothing.", "quantifier": "all histories", "why_tests_cant": "unbounded histories", "anchors": ["citrine/cluster_tools/clusterdb/container.py:ClusterRegistryContainer"]}
{"id": "C53", "title": "Contextual properties dispatch by context with default fallback", "statement": "Reading, writing or deleting a contextual property calls the function registered for the owner's current context if there is one, else the default; with no default it raises AttributeError and changes nothing.", "quantifier": "all registrations and contexts", "why_tests_cant": "all registration sequences", "anchors": ["jsonld/base.py:ContextualProperty"]}
{"id": "C54", "title": "Copy-on-decorate isolation", "statement": "p.getter(f)/setter(f)/deleter(f) return a property that differs from p only in that default; p itself is unchanged by that call and by any later change to the copy, and vice versa; *_context decorators change p itself.", "quantifier": "all sequences of decorator calls", "why_tests_cant": "aliasing over all sequences", "anchors": ["jsonld/base.py:ContextualProperty.setter", "jsonld/base.py:ContextualProperty.__copy__"]}
{"id": "C55", "title": "Context switches nest", "statement": "For any well-nested sequence of 'with obj.switch_context(c)' blocks, the context inside each block is c and after each block is what it was before it, even if the body raises.", "quantifier": "all nestings and exceptions", "why_tests_cant": "unbounded nesting depth and exception points", "anchors": ["jsonld/base.py:JsonContextAwareManager", "jsonld/base.py:PropertyAwareObject.switch_context"]}
{"id": "C56", "title": "data() emits exactly the selected properties", "statement": "For any object and filter arguments, data() contains a key for exactly the properties that are (non-None or include_none), included (or include empty), not excluded, and not in reject_values, under their renamed key, and no others; it restores the object's context and does not alter any property.", "quantifier": "all objects, property values and filter arguments", "why_tests_cant": "all combinations", "anchors": ["jsonld/jsonld.py:PropertyJsonLD.data"]}
{"id": "C57", "title": "data() output is JSON-serialisable and idempotent on plain data", "statement": "Every value in data() is built only from strings, numbers, None-free lists and dicts - never a Python object, tuple or set; strings, ints, lists and dicts of them are unchanged; booleans become the strings 'True'/'False'.", "quantifier": "all (finite) property values, arbitrarily nested", "why_tests_cant": "structural induction over all nested values", "anchors": ["jsonld/jsonld.py:PropertyJsonLD.__handler"]}
{"id": "C58", "title": "Nested objects lose 'context' as well as '@context'", "statement": "When serialising, a nested object's data omits its acontext property, and also any property whose name is a substring of 'acontext' (such as 'context').", "quantifier": "all nested objects", "why_tests_cant": "all property tables", "anchors": ["jsonld/jsonld.py:PropertyJsonLD.__handler"]}
{"id": "C59", "title": "Validated setters accept exactly the allowed shapes", "statement": "A SetterValidator(types, functional) setter accepts a value iff it is None, or of an allowed type, or (when not functional, or list is an allowed type) an arbitrarily nested list whose leaves are all allowed; otherwise ValueError is raised and the old value is kept; on success the stored value equals the input (lists are rebuilt element-wise).", "quantifier": "all type sets and all nested values", "why_tests_cant": "structural induction over nested values", "anchors": ["jsonld/tools/type.py:evaluate_value", "jsonld/tools/type.py:SetterValidator"]}
{"id": "C60", "title": "timedelta_str round-trips non-negative durations", "statement": "For every non-negative, non-zero timedelta with whole seconds, timedelta_str yields an ISO-8601 duration whose decoding with 365-day years and 30-day months gives back exactly the same number of seconds; distinct durations give distinct strings. Zero yields 'P' (no component) and negative durations or microseconds are not represented faithfully.", "quantifier": "all timedeltas", "why_tests_cant": "all durations", "anchors": ["jsonld/tools/datetime.py:timedelta_str"]}
{"id": "C61", "title": "datetime_str / parse round-trip", "statement": "For every naive datetime with year >= 1000 and no microseconds, datetime_str gives a string that is accepted by the property validator and that parse_activitystream_datetime maps back to the same datetime. Microseconds and UTC offsets are dropped (two different instants can serialise to the same text).", "quantifier": "all datetimes", "why_tests_cant": "all dates and times", "anchors": ["jsonld/tools/datetime.py:datetime_str", "jsonld/tools/datetime.py:parse_activitystream_datetime", "jsonld/tools/datetime.py:is_activity_datetime"]}
{"id": "C62", "title": "Validated timestamps parse", "statement": "Every string of the documented form YYYY-mm-ddTHH:MM[:SS][.ffffff](Z|+hh:mm|-hh:mm) with a real calendar date passes validation and parses to that date and time; but validation also accepts strings that parsing rejects (e.g. February 31st, leading garbage, trailing newline, second 60).", "quantifier": "all strings", "why_tests_cant": "all strings of the grammar", "anchors": ["jsonld/tools/datetime.py:is_activity_datetime", "jsonld/tools/datetime.py:parse_activitystream_datetime"]}
{"id": "C63", "title": "validate_url decision rule", "statement": "validate_url(url, secure) is True iff the parsed scheme is http or https, the authority is non-empty, its first character is allowed, and (when secure) the scheme is https. Only the first character of the authority is checked, so authorities containing forbidden characters later are accepted.", "quantifier": "all strings", "why_tests_cant": "all strings", "anchors": ["jsonld/tools/url.py:validate_url"]}
{"id": "C64", "title": "The document loader never issues a request for a rejected URL", "statement": "RequestsJsonLoader.get performs an HTTP request only if the URL passes the scheme, authority, character and (secure) https checks; a secure loader never requests a non-https URL; every failure of a call surfaces as JsonLdError.", "quantifier": "all URLs, loaders and server responses", "why_tests_cant": "all URLs and responses", "anchors": ["jsonld/docloader.py:RequestsJsonLoader"]}
{"id": "C65", "title": "The cached loader fetches each document at most once", "statement": "For any sequence of calls through any number of CachedRequestsJsonLoader instances, each URL is successfully fetched at most once, every later call returns the same document without a request, and failures are not cached. The cache is shared: a secure loader will return a document an insecure loader fetched over http.", "quantifier": "all call sequences, instances and server behaviours", "why_tests_cant": "unbounded histories", "anchors": ["jsonld/docloader.py:CachedRequestsJsonLoader"]}
{"id": "C66", "title": "Class cloning terminates and orders parents first", "statement": "For every finite list of classes with an acyclic inheritance relation, clone_classes terminates, clones every class exactly once, each after the clones of its in-package parents, and each clone inherits (transitively) from the clone of every in-package ancestor and from its own original; the only exceptions are TypeError, ValueError and AttributeError. When package classes come first in every package class's resolution order, no base of one is an ancestor of another base and every property class has a name, cloning succeeds and the clone's order is the clones of the package classes followed by the original's order; without the condition on bases it can raise TypeError for a valid hierarchy.", "quantifier": "all finite class hierarchies", "why_tests_cant": "all DAGs", "anchors": ["jsonld/kamino.py:ClassCloner.clone_classes"]}
{"id": "C67", "title": "Package namespace is set once", "statement": "A package's namespace can be set once to a non-empty string; later assignments or non-strings raise and leave it unchanged (the empty string counts as unset); the same holds for its class lists. A lookup returns the clone of the last class whose namespace it is (prefix#type, or prefix#dfn-name for a property class) and None for any other name; a list of keys containing a non-string raises ValueError.", "quantifier": "all assignment sequences and lookups", "why_tests_cant": "all sequences", "anchors": ["jsonld/package.py:JsonLdPackage"]}
{"id": "C68", "title": "Property linking is exactly the mapping", "statement": "After building a package, each object class exposes exactly its inherited/own properties plus those named for it (or an ancestor) in the property mapping; a mapping naming an unknown object or property raises ValueError.", "quantifier": "all mappings and hierarchies", "why_tests_cant": "all mappings", "anchors": ["jsonld/package.py:JsonLdPackage.__perform_mapping", "jsonld/package.py:JsonLdPackage.link_properties"]}
{"id": "C69", "title": "Combining packages always fails", "statement": "package + package and package - package raise TypeError for non-packages and otherwise always raise - AttributeError because no property mapping is passed on, unless cloning the classes again already raises TypeError, ValueError or AttributeError - so no combined package is ever produced, and engines over several packages cannot be built.", "quantifier": "all packages", "why_tests_cant": "all packages", "anchors": ["jsonld/package.py:JsonLdPackage.__add__", "jsonld/package.py:JsonLdPackage.__sub__", "jsonld/engine/jsonld_engine.py:JsonLdEngine"]}
{"id": "C70", "title": "Engine registry never overwrites a class", "statement": "register_class on a registered name raises ValueError and leaves the registry unchanged; otherwise adds exactly that entry; engine construction registers, for each namespace, the first class of the package having it and marks it with the engine. Because namespaces are computed again, after mapping a property named type the engine does not know the classes under the package's names.", "quantifier": "all registration sequences", "why_tests_cant": "all sequences", "anchors": ["jsonld/engine/jsonld_engine.py:JsonLdEngine.register_class"]}
{"id": "C71", "title": "Unpacking JSON preserves plain data", "statement": "_unpack_objects returns scalars unchanged, maps lists to lists element-wise with the same length, maps untyped dicts to dicts with the same keys, turns typed dicts of a registered class into objects and typed dicts of an unknown class into None.", "quantifier": "all JSON values, any nesting, any expansion behaviour", "why_tests_cant": "structural induction", "anchors": ["jsonld/engine/json_input.py:PropertyJsonIntake._unpack_objects"]}
{"id": "C72", "title": "from_json sets exactly the class's properties", "statement": "from_json on data whose type is registered calls the class's constructor with exactly its properties (absent ones as None, unknown JSON keys ignored) plus acontext; with an unregistered type and no default (or data that is not a dict) it raises AttributeError, never the intended ValueError. A falsy @context is replaced for expansion only: the falsy value itself is passed on as acontext.", "quantifier": "all JSON documents and registries", "why_tests_cant": "all documents", "anchors": ["jsonld/engine/json_input.py:PropertyJsonIntake.from_json"]}
{"id": "C73", "title": "Link coercion", "statement": "Link.from_str turns a valid http(s) URL, an e-mail address or an acct: account string into a Link with that href and nothing else set, a dict whose href is a valid URL into the Link with the dict as keyword arguments, applies itself element-wise to lists/tuples/sets (always producing a list of the same length) and leaves every other value unchanged; a dict whose href is truthy and not a string raises AttributeError. The setters of link-valued properties store exactly that.", "quantifier": "all nested values", "why_tests_cant": "structural induction", "anchors": ["activitystreams/models.py:Link.from_str"]}
{"id": "C74", "title": "Serialising never performs network requests", "statement": "Producing data()/json() of an object makes no HTTP request and does not depend on anything outside: inside the JSON context a link is rendered by its href, a list of links element by element, whereas ordinary attribute access expands a single link with exactly one request per access (and falls back to the link). Every object built by the package's constructors and assignments can be serialised, given recursion depth. A time or duration is written as its text, and in an object tree without plain dicts only the outermost object has an @context.", "quantifier": "all objects and property values", "why_tests_cant": "all property tables and nested values", "anchors": ["activitystreams/properties.py", "activitystreams/models.py:Link.expand", "activitystreams/models.py:Link.href_only"]}
{"id": "C75", "title": "Constructor arguments are stored", "statement": "For every ActivityStreams class of the package and every constructor property, the object holds the argument given (links converted, times parsed; default None) - except the parameters that are lost and read None: Link/Mention id and hreflang, Tombstone formerType, items/orderedItems/unorderedItems of Collection and CollectionPage, items/unorderedItems of OrderedCollection and OrderedCollectionPage; type is never taken from the arguments; a falsy startIndex becomes 0. The constructor succeeds iff every argument it uses could be assigned to its property, and otherwise raises what that assignment raises. An assignment stores the same and changes no other property.", "quantifier": "all classes, properties and argument values", "why_tests_cant": "all classes x properties x values", "anchors": ["activitystreams/models.py", "activitystreams/properties.py"]}
{"id": "C76", "title": "totalItems is counted once", "statement": "When a collection is constructed totalItems is the given value if truthy, otherwise the number of items the new object holds, which for the package's classes is always 0 because the items argument is lost; no later assignment of items or another property updates it.", "quantifier": "all collection classes, arguments and assignments", "why_tests_cant": "all states", "anchors": ["activitystreams/models.py:Collection", "activitystreams/properties.py:TotalItems"]}
{"id": "C77", "title": "A failed commit leaves autocommit off", "statement": "When the commit of an autocommitted create/update/delete fails (conflict, I/O error), the call raises, working and committed state equal the last committed state, and autocommit of the transaction manager stays off although conn.autocommit still reads as before: every later create/update/delete raises and has no effect until a block is entered or conn.autocommit is assigned.", "quantifier": "all states, calls and commit failures", "why_tests_cant": "needs a commit failure at every possible point", "anchors": ["citrine/storage/transaction.py:ThreadTransactionManager.__exit__", "citrine/storage/transaction.py:autocommit"]}
{"id": "C78", "title": "Generated database modules cannot be imported", "statement": "The __init__.py that create_dbmodule writes imports CitrineDB from citrine, which does not export it, so executing it raises ImportError: is_path_dbmodule is False for every generated directory, discovery never returns one, and DbGroup.create_dbmodule always raises and registers nothing, yet leaves the new directory on disk.", "quantifier": "all directories, groups and names", "why_tests_cant": "all file-system states", "anchors": ["citrine/cluster_tools/dbmodule/consts.py", "citrine/cluster_tools/dbmodule/dbgroup.py:DbGroup.create_dbmodule"]}
{"id": "C79", "title": "Destroying a module does not unregister it, overwriting does not overwrite", "statement": "DbGroup.destroy_dbmodule leaves DbGroup.modules unchanged whatever happens on disk; DbModule.create with overwrite=True on an existing path raises IOError exactly as without it, because the flag lands in the discoverable parameter.", "quantifier": "all file-system states and groups", "why_tests_cant": "all states", "anchors": ["citrine/cluster_tools/dbmodule/dbgroup.py:DbGroup.destroy_dbmodule", "citrine/cluster_tools/dbmodule/dbmodule.py:DbModule.create"]}
{"id": "C80", "title": "A clone has its original's attributes", "statement": "Every attribute name and every property name visible on a cloned class is visible on its original and vice versa, and the value found derives (up to wrapping) from a definition in the original's resolution order; __properties__ lists exactly the properties and __jsonld_package__ is the package. With single inheritance the definition found is the original's; names that are no property resolve to the nearest in-package definition. With multiple inheritance an inherited property copied into an intermediate clone can hide an override, and an out-of-package intermediate class's override is hidden by the package's older definition.", "quantifier": "all class hierarchies, attributes and package contents", "why_tests_cant": "all hierarchies; wrapped copies of inherited properties interact with resolution order", "anchors": ["jsonld/kamino.py:ClassCloner.clone_classes", "jsonld/kamino.py:ClassCloner.wrap_properties", "jsonld/kamino.py:ClassCloner.wrap_callables"]}
{"id": "C81", "title": "Cloning never changes the original classes", "statement": "clone_classes and building a package change no attribute, base, name or resolution order of any class that existed before, whether it succeeds or raises.", "quantifier": "all class hierarchies and package contents, all outcomes", "why_tests_cant": "all hierarchies and failure points", "anchors": ["jsonld/kamino.py:ClassCloner.clone_classes"]}
{"id": "C82", "title": "Indexing the engine reads JSON texts", "statement": "engine[text] returns the one object from_json makes of it; engine[list or tuple of texts] returns a list with one object per text in order, each read after the previous ones, the first exception stopping it; anything that is not a string, list or tuple, or a sequence with an element that is not a string, raises TypeError before anything is read.", "quantifier": "all keys, documents, registries", "why_tests_cant": "all sequences and documents", "anchors": ["jsonld/engine/jsonld_engine.py:JsonLdEngine.__getitem__"]}
{"id": "C83", "title": "Properties that refuse ActivityStreams objects", "statement": "preview, result, tag, target, to, subject, relationship, describes and formerType raise ValueError for every ActivityStreams object that is not a Link (because a class named Object defined later in properties.py shadows the model class in their type lists), in assignments and constructors alike, whereas attachment, attributedTo, actor, audience, bcc, bto, cc, generator, icon, image, inReplyTo, instrument, location, items, orderedItems, unorderedItems, oneOf, anyOf, closed, origin and object accept and store every one.", "quantifier": "all classes, properties and objects", "why_tests_cant": "all classes x properties x objects", "anchors": ["activitystreams/properties.py:Object", "activitystreams/properties.py:To", "activitystreams/properties.py:Target"]}
{"id": "C84", "title": "Creating a database replaces the container that was there", "statement": "ContainerDb.create and ContainerDb.new at a path whose file already holds a database commit a new empty container over root.container, also with create=False: afterwards no id stored before can be read (every read gives its default), sessions behave like sessions on an empty map, and the strict argument is ignored (no collection is strict). Other root entries survive unless create=True. If the commit fails, root.container is unchanged unless create=True; capacity 0 raises ValueError before the file is touched. new with a databases dict raises ValueError after having replaced the container.", "quantifier": "all earlier file contents, capacities from 1 to 2^53, arguments, ids and later histories", "why_tests_cant": "all file contents and all later histories", "anchors": ["citrine/database/containerdb.py:ContainerDb.create", "citrine/database/containerdb.py:ContainerDb.new"]}
{"id": "C85", "title": "Opening a database", "statement": "Opening a storage whose root has a container changes nothing; one whose root has no container is refused with IncompatibleDatabaseError and left unchanged; a storage without root gets an empty container of default size, and if that commit fails it is left with a root without container, which every later opening refuses. Passing a databases dict never succeeds (the base class registers the name twice). A client refuses create and new with NotImplementedError and connect never changes the server's root, so its strict argument has no effect.", "quantifier": "all storages, names, databases dicts and commit outcomes", "why_tests_cant": "all storage states", "anchors": ["citrine/database/containerdb.py:ContainerDb.__init__", "citrine/client/container_client.py:ContainerClient.connect", "citrine/client/container_client.py:ContainerClient.create"]}
{"id": "C86", "title": "with db as conn closes only the innermost connection", "statement": "In a program that enters one database's context manager any number of times, nested or in sequence and with exceptions raised or caught anywhere, the connection of a block is closed if and only if no other connection was opened through the context manager between its opening and the end of its block; so the outer connections of nested blocks are never closed.", "quantifier": "all programs of nested with blocks, raises and handlers", "why_tests_cant": "all nestings and exception points", "anchors": ["citrine/database/containerdb.py:ContainerDb.__enter__", "citrine/database/containerdb.py:ContainerDb.__exit__"]}
{"id": "C87", "title": "Objects survive being written as JSON and read back", "statement": "If an object of a class other than Object, Link and Mention has the document's context, its class's name as type, nothing in the attributes its constructor ignores, and in every other property a value that is None, text, number, list, an offset-free date-time of whole seconds from the year 1000 on (where times are parsed), a Link with only an href, a text that is no link, or again such an object, then the engine's from_json of the text of obj.data() returns an object of the same class with the same value in every property, however deep. What is not in that list is lost or refused: a Question closed with a bool or a date and a Tombstone with a time of deletion can be written but never read; a duration comes back as its text; a Link or Mention with more than an href comes back as a Link with only the href; a plain Object has no type, so reading it raises AttributeError when no default class is registered.", "quantifier": "all objects, nesting depths, documents, and outside states; any expansion and registry that recognise the package's types", "why_tests_cant": "all object trees and all iteration orders", "anchors": ["jsonld/jsonld.py:PropertyJsonLD.data", "jsonld/jsonld.py:PropertyJsonLD.json", "jsonld/engine/json_input.py:PropertyJsonIntake.from_json", "activitystreams/models.py"]}
{"id": "C88", "title": "The document the loader returns", "statement": "When the loader returns a document, its content is the JSON body of the answer to the one request made for the given URL. contextUrl is the target of the answer's one context link when the answer is not JSON-LD, and None otherwise. If the answer's type is no JSON type and its one 'alternate' link is of JSON-LD type, contentType is JSON-LD and documentUrl is the link resolved against the requested URL (although the alternate is never fetched); otherwise they are the answer's type (octet-stream when missing or empty) and final URL. A valid URL answered with JSON gives a document unless the Link header has several context links (on an answer that is not JSON-LD) or several alternates, which raises JsonLdError.", "quantifier": "all URLs, answers, Link headers and earlier requests", "why_tests_cant": "all answers and Link headers", "anchors": ["jsonld/docloader.py:RequestsJsonLoader.get", "jsonld/docloader.py:RequestsJsonLoader.__call__"]}
{"id": "C89", "title": "Which values each property accepts", "statement": "For every class and every property of the vocabulary, assignment succeeds exactly for the values of a stated set and otherwise raises ValueError and changes nothing: one text for href, hreflang, mediaType, units; texts or nested lists of texts for content, rel, summary, type; None or a non-negative int (bool included, 0 included) for height, width, startIndex, totalItems; non-negative numbers for radius; numbers for accuracy, altitude, latitude, longitude; timedelta or text for duration; datetime for deleted; None, a datetime, or a text that validates and parses for the times; text that validate_url does not raise on for id; Objects and Links (after strings and dicts are made links) and nested lists of them for the object-valued properties, one page or Link for current/first/last/next/prev, and so on; anything for @context. None is always accepted. No other property exists.", "quantifier": "all classes of the vocabulary, all properties and all values, nested lists included", "why_tests_cant": "all values, nested to any depth, for every property", "anchors": ["activitystreams/properties.py:Object", "jsonld/tools/type.py:evaluate_value", "jsonld/tools/type.py:SetterValidator"]}
{"id": "C90", "title": "Reading a property that holds a plain models object converts it in place", "statement": "Reading an attribute changes the object only if the attribute holds an object of a class of activitystreams/models.py outside any package; then the object stored there becomes one of the package's class of the same name, with every property of that class set again from the value it had (or left alone where setting raises AttributeError), all other attributes of the holder unchanged, and reading again returns it without further change. If the package's property refuses a value, the first read raises and the second returns the half-converted object. Elements of lists are never converted. Converting an object gives, for every property but type, what the package's own constructor makes of the same arguments.", "quantifier": "all classes, attribute dictionaries, properties, held objects and earlier conversions", "why_tests_cant": "all held objects and histories of reads", "anchors": ["jsonld/kamino.py:ClassCloner.change_class", "jsonld/kamino.py:ClassCloner.wrap_properties", "activitystreams/models.py:Object"]}
{"id": "C91", "title": "Namespaces of package classes depend on earlier conversions", "statement": "Before any conversion every package class but Object and Link reports the namespace of its own name. After a conversion to class K, K and every class whose nearest converted class in its resolution order is K report K's namespace, so __namespace__ of an object and whether a Link or Mention found in a property is expanded by a request depend on which properties were read before: with no Link converted only the package's Link objects are expanded, afterwards also Links of models.py and package Mentions unless a Mention was converted.", "quantifier": "all histories of conversions, all classes", "why_tests_cant": "all histories of reads", "anchors": ["jsonld/base.py:NamespacedObject", "jsonld/kamino.py:ClassCloner.change_class", "activitystreams/models.py:Link.get"]}
{"id": "C92", "title": "container accounting", "statement": "A container's size counts each object once for every group that holds it: it is the sum over the distinct ids of has(id), at least the number of distinct ids, and equal to it exactly when no id is held by two groups; 0 <= used <= size. A write that stores a new id returns 1 and adds one to size and used, a replacing or refused write changes neither; a delete that succeeds lowers size by the number of values it returns, which is has(id) before; after a condense of a non-strict container size = used = the number of distinct ids. max_size is the sum of the limits of all collections of all groups and the capacity that of the primary's; no write or delete changes either, a condense that transfers everything leaves the capacity as max_size, and a resize adds the new primary's limit and takes away those of the groups it empties. The usage is used / capacity (ZeroDivisionError without capacity). The status (one of 0, 60, 70, 80, 90) is that of the fullest collection of the primary, so it never understates the primary's overall usage, although one full collection makes it 90 however empty the rest is.", "quantifier": "all containers reachable by any operation history; all ids; collection sizes and maxima up to 2^40 for the status", "why_tests_cant": "sums over unboundedly many ids and groups, for every history; thresholds on every size", "anchors": ["citrine/storage/container.py:ContainerMeta", "citrine/storage/group.py:GroupMeta", "citrine/storage/collection.py:CollectionMeta.status"]}
{"id": "C93", "title": "strict assigned outside a block is lost", "statement": "conn.strict = b takes effect in memory but is not committed: with autocommit on, the next create, update or delete, the next with-block and the next connection behave exactly as if the assignment had not been made (so a full collection still accepts an overwrite). Assigned inside a with-block that ends normally, it is committed together with the block's other changes, whatever they are. Non-booleans raise TypeError and change nothing.", "quantifier": "all connections, states, values, calls and block bodies; every behaviour of commit", "why_tests_cant": "equality of all future behaviour for every state and every call", "anchors": ["citrine/connection/container_connection.py:ContainerConnectionProperties.strict", "citrine/storage/transaction.py:autocommit", "citrine/storage/container.py:ContainerProperties.strict"]}
{"id": "C94", "title": "the older CitrineConnection", "statement": "With its default transaction manager, every create, update and delete of a CitrineConnection raises AttributeError before doing anything, so no program, with or without with-blocks and exception handlers, changes the database; reads work. With a CitrineTransactionManager passed in, the calls of a session behave like those of a plain map with each change committed on its own: create overwrites an existing id silently, delete of a missing id raises KeyError, conn[id] and conn[list] read (None for missing ids), a slice or a non-iterable raises TypeError. setup() adds a missing container (empty) and metadata, commits them and leaves existing ones alone; ManagedConnection.setup raises TypeError on a database without a container and changes nothing. A change whose commit fails raises that error and leaves the database as it was, and every later create, update and delete raises TransactionFailedError until a with-block, which starts from the saved state; once its commit succeeds each call commits on its own again.", "quantifier": "all programs, call histories, databases and commit behaviours", "why_tests_cant": "all programs and histories", "anchors": ["citrine/connection/connection.py:CitrineConnection", "citrine/connection/connection.py:ManagedConnection", "citrine/persistence.py:CitrineThreadTransactionManager", "citrine/persistence.py:autocommit"]}
{"id": "C95", "title": "The JSON text of an object", "statement": "obj.json(minified, indent) succeeds whenever obj.data() does, in every format, and raises data()'s exception otherwise; its text is printable ASCII, with line breaks only if an indent is given. json.loads of the text returns the written data, whatever the format: two values with the same text are the same data (tuples as lists). json.dumps fails exactly for sets, iterators and other objects, with TypeError. Not for every text: two adjacent lone surrogates come back as one character. Hence the round trip of an object through data(), json.dumps, json.loads and the engine returns the same object.", "quantifier": "all JSON values nested to any depth, all texts of code points without a high surrogate directly before a low one, all formats", "why_tests_cant": "all documents and all texts", "anchors": ["jsonld/jsonld.py:PropertyJsonLD.json", "jsonld/engine/json_input.py:PropertyJsonIntake.from_json"]}
{"id": "C96", "title": "The usage report of a group", "statement": "For a group of collections with positive limits: the overall usage lies between lowest_collection_usage and highest_collection_usage, each of which some collection has and which bound every collection's usage; it is at most 1.0 while the group holds at most max_size objects and at least 1.0 from there on. collection_usage gives each collection's own usage. max_collection_size is the largest limit among the collections; no operation changes max_size or max_collection_size. A group of no collections raises ValueError (ZeroDivisionError for usage).", "quantifier": "all groups, sizes, limits and histories of operations; usages as the binary64 numbers Python computes", "why_tests_cant": "all sizes and limits, floating-point rounding included", "anchors": ["citrine/storage/group.py:GroupMeta", "citrine/storage/group.py:Group"]}
{"id": "C97", "title": "Iterating and indexing an object", "statement": "Iterating an object yields each property with its value in order, each read once, up to the first property that raises. obj[name] and obj[list of names] give a dict of exactly those properties (distinct keys in order of first mention, the last value read for a repeated name), or raise what the first failing property raises; a key that is no property raises KeyError (TypeError if some key is no string) and no property is read. Not so for an iterator of names: it gives an empty dict, and of an iterator with an unknown name only the names after it are reported.", "quantifier": "all objects, whatever their properties do when read (return, raise, change state), all lists and iterators of keys", "why_tests_cant": "all properties' behaviour and all key lists", "anchors": ["jsonld/base.py:PropertyAwareObject.__iter__", "jsonld/base.py:PropertyAwareObject.__getitem__"]}
{"id": "C98", "title": "The list of a class's properties", "statement": "The properties reported for a class are always properties the class defines or inherits, whatever was asked, defined or linked before. With refresh, or when neither the class nor an ancestor has been asked, they are exactly those, each once, and asking changes nothing but the cached list of that class; after a refresh the class keeps reporting exactly its properties until a property is linked to it or to an ancestor. Otherwise the list of the nearest asked class in the resolution order is reported: a subclass of an asked class reports none of the properties it adds, and the answer depends on which classes were asked before.", "quantifier": "all class hierarchies, all histories of questions, class definitions and linked properties", "why_tests_cant": "all histories and hierarchies", "anchors": ["jsonld/base.py:PropertyAwareObject.__get_properties__", "jsonld/package.py:JsonLdPackage"]}
{"id": "C99", "title": "Linking and removing a property by hand", "statement": "package.link_property(prop, cls) gives cls, under the name of the property class, a property with its functions, and changes nothing else but the records kept on the property class; it succeeds exactly if the property class has a name and functions. The class and every subclass that does not define the name itself see it. remove_property_link deletes the attribute of the class itself, so that the inherited one shows if there is one; on a class that merely inherits it, it raises AttributeError and changes nothing. Linking a new name and removing it restores every attribute. The list of the class's properties follows neither: on a package's class a property linked by hand is not iterated or serialised, and a removed one is still listed although reading it raises AttributeError.", "quantifier": "all class hierarchies, property classes and target classes", "why_tests_cant": "all hierarchies and classes", "anchors": ["jsonld/package.py:JsonLdPackage.link_property", "jsonld/package.py:JsonLdPackage.update_property_link", "jsonld/package.py:JsonLdPackage.remove_property_link", "jsonld/base.py:PropertyAwareObject.__get_properties__"]}
{"id": "C100", "title": "Classes as attributes of the engine", "statement": "For every engine made, engine.Name is the class registered last among the registered classes whose class name is Name, and other names give no class. A package of which some registered class is called packages, class_registry or property_registry raises AttributeError (after its classes were given a reference to the engine); otherwise the engine is made.", "quantifier": "all packages and class hierarchies", "why_tests_cant": "all sets of classes and names", "anchors": ["jsonld/engine/jsonld_engine.py:JsonLdEngine"]}
{"id": "C101", "title": "Opening the connections of a group", "statement": "GroupReadConnection(dbs, transaction_manager, **connection_args) opens every database once, in their order, with the group's transaction manager (or, without one, a new manager for each) and at the points at/before given under the database's name, up to the first database that raises or whose arguments are unusable (no mapping, or an unknown key: TypeError); that exception is raised and the connections opened so far stay open. On success there is one connection per database, in order. A transaction manager given for a single database is never used.", "quantifier": "all lists of databases, arguments and behaviours of open", "why_tests_cant": "all behaviours of the databases opened", "anchors": ["citrine/connection/group_connection.py:GroupReadConnection.__init__", "citrine/database/containerdb.py:ContainerDb.open"]}
{"id": "C102", "title": "Iterating a collection", "statement": "Iterating a collection whose items are a list yields exactly those items in order; a collection with an empty list instead yields one None, one without items yields one None and then raises TypeError, and one with a single item yields what iterating that item yields. The items are read exactly twice, and what the first read raises is raised before anything is yielded.", "quantifier": "every collection, every value its items can have, every way reading them can change the object", "why_tests_cant": "the result depends on what every read of the items does and on which of the shapes is held; tests iterate one populated list", "anchors": ["activitystreams/models.py:Collection.__iter__"]}
{"id": "C103", "title": "The managed group", "statement": "Constructing a managed group succeeds exactly if its modules are discovered, its own storage can be opened, and its name is neither 'unnamed' nor the name of one of its modules; the databases are then the modules' and its own. The default name therefore never works. Creating, destroying and validating modules raise TypeError and touch no file, and `new` never returns.", "quantifier": "every file tree, every root, every name, every behaviour of the storage", "why_tests_cant": "no test constructs it; the claim is about every directory and every name", "anchors": ["citrine/cluster_tools/dbmodule/dbgroup.py:ManagedGroupDB"]}
{"id": "C104", "title": "The vocabulary", "statement": "The classes are exactly the 54 types of the W3C Activity Vocabulary, each under its name, and one class derives from another exactly if its type extends the other's. The properties of a package class (those data() writes) are the properties of its type, own and inherited, with three differences: id, type, the JSON-LD context and the namespace are added everywhere and orderedItems/unorderedItems for collections; the property context is missing from every class; intransitive activities have an object.", "quantifier": "all classes, all names", "why_tests_cant": "the whole table must agree with the recommendation; tests look at a few classes", "anchors": ["activitystreams/models.py", "activitystreams/package.py:property_mapping", "jsonld/package.py:JsonLdPackage"]}
{"id": "C105", "title": "Calls of several connections", "statement": "Any number of connections to one database whose container has one group and is not strict, each used by one thread, call create, update and delete with autocommit on, in any interleaving, with commits refused at any moment. The calls that were not refused are linearizable: there is an order of them, each at a moment between its start and its end, in which running them one after the other gives every caller its result and leaves the committed container. A create that is told it succeeded found nothing under its id and stored its value. A refused call changes nothing; the connection then raises TransactionFailedError on every mutating call until its transaction is aborted, and even then commits nothing until autocommit is set again or a with block is used.", "quantifier": "all containers with one non-strict group, all numbers of connections, all interleavings, all refusals of the storage", "why_tests_cant": "interleavings of any number of calls on any number of connections; tests use one connection", "anchors": ["citrine/connection/container_connection.py:ContainerConnection", "citrine/storage/transaction.py:autocommit", "citrine/storage/container.py:Container"]}
{"id": "C106", "title": "Blocks of several connections", "statement": "Inside `with conn:` every call answers as if the block were alone since it began, whatever others commit meanwhile; what others do is never seen before the connection's own next step. At its end a block that is accepted has stored exactly the ids it changed, none of which anybody else changed since it began, and left everything else as others committed it; a refused block changes nothing, and apart from refusals of the storage's own it is refused only over an id both sides changed. Blocks are not serialisable: two blocks that each read what the other writes are both accepted.", "quantifier": "all containers with one non-strict group, all bodies, all interleavings with other connections", "why_tests_cant": "all bodies and interleavings", "anchors": ["citrine/connection/container_connection.py:ContainerConnection.__enter__", "citrine/connection/container_connection.py:ContainerConnection.__exit__"]}
{"id": "C107", "title": "Reads and other connections' commits", "statement": "A read (or an index) outside a block gives what was committed when this connection last began or ended a call or block or aborted; it does not see what other connections have committed since.", "quantifier": "all containers, all schedules of the other connections", "why_tests_cant": "all schedules between the boundary and the read", "anchors": ["citrine/connection/container_connection.py:ContainerConnection.read", "citrine/connection/container_connection.py:ContainerConnection.__getitem__"]}
{"id": "C108", "title": "Maintenance next to running calls", "statement": "Whatever the schedule, with resizes, condenses, deletes, writes and changes of strictness by any connection at any moment, the committed container stays usable: distinct groups with the primary first, every id in the collection its hash names, has counting the groups that hold an id, read finding the first truthy value. A block commits its own change of the groups only if nobody else has changed them since it began (of two overlapping resizes the second is refused and leaves nothing), and no call undoes a resize committed while it ran. But a create that is told it succeeded during another connection's resize can be lost, two creates of one id can both succeed, overlapping creates can exceed the capacity of a strict collection (by at most the number of connections less one), and in a container with two groups overlapping calls are not linearizable.", "quantifier": "all schedules of any number of connections, all maintenance operations", "why_tests_cant": "all interleavings of maintenance and calls", "anchors": ["citrine/storage/container.py:Container.resize", "citrine/storage/container.py:Container.condense", "citrine/connection/container_connection.py:ContainerConnection.create"]}
{"id": "C109", "title": "stringify makes plain data", "statement": "stringify turns any value without self-reference into plain data: texts and numbers stay as they are, datetimes and timedeltas become their ISO texts, lists, tuples and sets become lists of the same length in order, dicts become dicts with text and number keys, at every depth; any other object becomes str() of it. It succeeds exactly when every str() does and no dict key is a tuple (TypeError), leaves plain data unchanged and so changes nothing when applied twice. Contrary to its comment numbers are not turned into texts, keys rendered alike are merged with the earlier value lost, and JSON's null and booleans become the texts None and True.", "quantifier": "all values nested to any depth", "why_tests_cant": "all nestings of all classes of values", "anchors": ["jsonld/engine/utils.py:stringify", "jsonld/engine/utils.py:stringify_iterable", "jsonld/engine/utils.py:stringify_dict", "jsonld/engine/utils.py:STRINGIFY_MAP"]}
{"id": "C110", "title": "Connections sharing a transaction manager", "statement": "When connections of different databases are opened with one transaction manager, a block of any of them (or of the manager) that ends normally makes all calls made in it on all the databases durable together, and one that raises, or whose commit is refused, changes none of them; with conn_a, conn_b: is the same as one block. An autocommitted call commits its own database only and discards what the other connections had pending. Assigning conn_a.autocommit switches it for all, though conn_b.autocommit reads as before, and leaving any connection's block switches it on for all. So an object moved from one database to another in a block is in the second or everything is as it was - except that a crash during the commit can leave some databases with their old and others with their new state (each one entirely), which can lose the moved object.", "quantifier": "all block bodies over any number of databases, all commit outcomes, all crash points of the commit", "why_tests_cant": "all bodies, outcomes and crash points", "anchors": ["citrine/storage/transaction.py:TransactionManager", "citrine/storage/transaction.py:ThreadTransactionManager", "citrine/connection/container_connection.py:ContainerConnection", "citrine/database/containerdb.py:ContainerDb.open"]}
{"id": "C111", "title": "Deleting through a connection", "statement": "conn.delete(id) returns the values of the groups holding the id, in group order (an empty tuple if none does), and afterwards no group holds it; it raises KeyError if a group holds it after one that does not. With autocommit on such a failed delete changes nothing; with autocommit off, or caught inside a block, what was removed from the leading groups stays removed and is committed with the rest, so that the id then reads as what the remaining groups hold.", "quantifier": "all reachable containers, all ids, autocommit on or off", "why_tests_cant": "all histories of groups that hold or miss the id", "anchors": ["citrine/connection/container_connection.py:ContainerConnection.delete", "citrine/storage/container.py:Container.delete", "citrine/storage/transaction.py:autocommit"]}
{"id": "C112", "title": "Operators of a container that do nothing", "statement": "id in container is False for every container and id, also right after the id was stored, so it is right exactly about ids that are not held (has answers the question); iterating over a container, or making a list or dict of it, raises TypeError, and container + other is None whatever other is.", "quantifier": "all containers after any operations, all ids", "why_tests_cant": "all histories and ids", "anchors": ["citrine/storage/container.py:Container.__contains__", "citrine/storage/container.py:Container.__iter__", "citrine/storage/container.py:Container.__add__"]}
{"id": "C113", "title": "The size of a module and of a group", "statement": "The size of a group of databases is the sum of what the modules' connections say, taken in order with one connection open at a time and each closed again; the first module whose database does not open or whose connection does not say decides with its exception, and later ones are not opened. ContainerDb's connections have no size, so for any non-empty group of them the size raises AttributeError, and no registry entry can be made of or updated from such a module (an entry keeps its size).", "quantifier": "all groups of modules, all outcomes of opening and asking", "why_tests_cant": "any number of modules in any order of outcomes", "anchors": ["citrine/cluster_tools/dbmodule/dbmodule.py:DbModule.size", "citrine/cluster_tools/dbmodule/dbgroup.py:DbGroup.size", "citrine/cluster_tools/dbmodule/dbmodule.py:DbModuleRegistry"]}
{"id": "C114", "title": "Headers of a request for a document", "statement": "jsonld_get sends one request whose headers are the caller's, with the project's Accept first unless the caller gives one in any spelling, in which case the caller's is what counts; it returns the parsed answer or, with json=False, the response, and raises whatever the request or the parsing raises. A caller giving Accept in two spellings can however send the other of his two values than without the default.", "quantifier": "all header dicts, urls and answers", "why_tests_cant": "all header dicts and spellings", "anchors": ["jsonld/utils.py:jsonld_get", "jsonld/tools/url.py:jsonld_get"]}
{"id": "C115", "title": "Which JSON texts are read", "statement": "Giving the engine a text is the same as giving it the value the JSON grammar reads from the text, and raises ValueError, before anything is fetched or constructed, for every text that grammar does not read. No text has two meanings and blanks around it do not matter. Beyond RFC 8259 the texts NaN, Infinity and -Infinity are read as numbers, raw control characters are still refused in strings, and of a key given twice the last value counts, in the first one's place.", "quantifier": "all texts", "why_tests_cant": "all texts of any length and nesting", "anchors": ["jsonld/engine/json_input.py:PropertyJsonIntake.from_json"]}
{"id": "C116", "title": "Stored objects changed in place", "statement": "An object that was stored and is then changed in place (through a reference from read, or the one given to create) is changed for this connection only: nothing is committed by that, not even at the normal end of a block, and a block ending by an exception does not undo it. A later commit that writes a neighbouring entry of the same BTree record commits it too, and the cache may drop it at any moment. conn.update(id, obj) with another object always commits it; with the very object that is stored it commits the change only if the BTree notices such an assignment. Sessions that change no stored object in place behave as a map, however the entries are grouped and whatever the cache drops.", "quantifier": "all sessions of calls, blocks, in-place changes and cache evictions, all groupings of entries into records", "why_tests_cant": "all sessions and all groupings; tests use one small tree and never change stored objects", "anchors": ["citrine/connection/container_connection.py:ContainerConnection.update", "citrine/connection/container_connection.py:ContainerConnection.read", "citrine/storage/transaction.py:autocommit", "citrine/storage/container.py:Container.write"]}
{"id": "C117", "title": "Objects of a package cannot be stored", "statement": "A value can be stored in a database (pickled at the commit) exactly if, for the class of every instance in it at any depth, importing the class's module and taking its name gives that very class, and it holds nothing pickle always refuses. The classes of a package are never obtained that way, so no value with an object of a package in it - in particular nothing an engine makes of a document - can be stored: the commit raises and nothing changes. The original classes stay as storable as before; a clone goes under its original's module and name, so whatever modules are made to hold, originals and clones are never both storable. What data() gives can always be stored.", "quantifier": "all packages and engines, all object trees, all contents of modules", "why_tests_cant": "all class hierarchies and object trees; no test stores an object of a package", "anchors": ["jsonld/kamino.py:ClassCloner.clone_classes", "jsonld/package.py:JsonLdPackage", "jsonld/engine/jsonld_engine.py:JsonLdEngine", "citrine/storage/transaction.py:TransactionManager.__exit__"]}
{"id": "C118", "title": "Writing objects that share others or lead back to themselves", "statement": "Writing an object out with data() or json() gives a result exactly when no chain of objects written inside one another goes on for ever (and no getter raises). An object that leads back to itself through properties that are written (a collection whose first page is partOf it, a note whose reply is inReplyTo it) cannot be written at any recursion limit: RecursionError, no partial output. Properties that are None, left out, or (in nested objects) excluded do not count. A shared object is written once for every mention, as if the objects were a tree, so the output can be exponentially larger than the objects. A higher recursion limit changes nothing but RecursionErrors, and every object involved is afterwards in the context it was in before, whether the call returned or raised.", "quantifier": "all object graphs (any number of objects, any sharing and cycles, through lists and dicts), all arguments of data(), all recursion limits, all contexts the objects are in", "why_tests_cant": "Tests write a few small trees; cycles of every length through any mixture of lists, dicts and properties, and every recursion limit, are out of their reach.", "anchors": ["jsonld/jsonld.py: PropertyJsonLD.data, PropertyJsonLD.__handler", "jsonld/base.py: JsonContextAwareManager"]}
{"id": "C119", "title": "The caching document loader used by several threads", "statement": "When several threads call the caching document loader, whatever the interleaving: a call that returns gives a document the server gave in answer to a request for that very url; a request is only made on behalf of a call for that url that may make it, at most one per call; a cached document may be replaced but never disappears, and after it was stored only the calls that had already missed it make a request; once no such call is under way the document is final, and every later call returns it without a request; no thread ever waits for another. With one thread this is C65; with two, a url may be requested twice and two callers may get different documents.", "quantifier": "all numbers of threads, all sequences of calls by each, all schedules, all answers of the network", "why_tests_cant": "A test runs one or two interleavings; these claims are about every schedule of any number of threads.", "anchors": ["jsonld/docloader.py: CachedRequestsJsonLoader.__call__, RequestsJsonLoader.get"]}
{"id": "C120", "title": "An object whose context several threads switch", "statement": "When several threads switch the context of one object (obj.switch_context(c), obj.data()): the object is always in its own context or in that of one of the blocks, every context seen is one of these, nothing of the manager's stack is lost, no exit finds it empty, and when all have finished it is as it was. A thread alone sees the context of its innermost block and leaves the object as it found it. Without interruption inside the manager's methods the object's context is restored when all have finished, whatever the overlap; with blocks of one and the same context, a look inside a block sees it. Refuted: that the context is restored when a thread is interrupted between popping and assigning (the object then stays in the JSON context for good); that a thread sees the context of its own block; that a thread outside any block sees the object's context.", "quantifier": "every number of threads, every program of looks and nested blocks, every schedule, every starting stack and context", "why_tests_cant": "depends on the interleaving of threads inside two unlocked methods", "anchors": ["jsonld/base.py: JsonContextAwareManager.__call__, __exit__", "jsonld/jsonld.py: data, switch_context"]}
{"id": "C121", "title": "Creating and deleting database modules: crashes and concurrent processes", "statement": "If processes that create or delete the same database module directory die between any two file system calls or run at the same time: of several creators at most one returns normally, the others raise IOError or FileExistsError and only when the directory is there, if all come to an end exactly one returned normally, and nothing but the directory and its __init__.py (whole or empty) changes. Whatever creators died where, either nothing was made, or every later create_dbmodule for the name raises until delete_dbmodule is called, which succeeds and leaves the file system as it was. A delete that died anywhere and is done again gives the same file system and result as an uninterrupted one, or FileNotFoundError if the first had already removed the directory. Several deleters remove only what one would, raise at most FileNotFoundError, and once one has returned normally all of it is gone. Refuted: that of two deleters both return normally; that a create that returned normally while someone deletes has left a module.", "quantifier": "every file system, path, flags, number of processes, schedule and crash point", "why_tests_cant": "every crash point and interleaving of file system calls", "anchors": ["citrine/cluster_tools/dbmodule/dbmodule.py: create_dbmodule, delete_dbmodule"]}
{"id": "C122", "title": "Documents shared through the loader's cache", "statement": "The caching document loader gives every caller the very dict it keeps: two successful loads return the same object exactly when they are one call, or both are calls of the caching loader with the same url; a loader without the cache returns an object no other call returns. What a load returns is the server's answer to the first load of that url, with every change callers have made to that object in place since; it is what the server sent if nobody changed that object. That it is always what the server sent is refuted.", "quantifier": "all servers, all histories of loads (caching or not, https only or not, any urls, failing or not) and in-place changes by callers", "why_tests_cant": "The result of a load depends on everything any caller did to any document it was given before; tests check two loads in a row without a change between.", "anchors": ["jsonld/docloader.py:RequestsJsonLoader", "jsonld/docloader.py:CachedRequestsJsonLoader"]}
{"id": "C123", "title": "Lists shared between properties and callers", "statement": "A guarded property (any property but @context) stores new lists, never the caller's: as long as callers change in place only lists that no property holds, each property reads, all the way down, as the conversion of what the last value assigned to it read as when it was assigned; its lists are not the caller's, none occurs twice and none is shared with another property, even if one was assigned from the other; so it always holds a value its check accepts. An assignment of a finite value has exactly the outcome of checking its leaves in order; a refused assignment changes nothing; a list containing itself is never stored. But reading a property gives the very list it holds: changing that list changes the object and nothing checks it, so that a property never holds a refused value is refuted; @context holds the caller's own list.", "quantifier": "all histories of any callers making, changing, assigning and reading arbitrarily nested, shared and cyclic lists, over any number of objects and properties, any checks", "why_tests_cant": "Which lists two holders share depends on the whole history of assignments and changes; a test sees one value at one moment.", "anchors": ["jsonld/tools/type.py:evaluate_value", "jsonld/tools/type.py:SetterValidator.check", "jsonld/jsonld.py:PropertyJsonLD.acontext", "activitystreams/properties.py", "activitystreams/models.py:Link.from_str"]}
{"id": "C124", "title": "One connection used by several threads", "statement": "By default a connection's transaction manager keeps one transaction and one autocommit setting per thread, while the connection has a single set of pending changes. Once a thread has changes pending (inside its with block), everything other threads do on that connection - calls outside blocks and whole blocks that end normally included - takes effect in memory at once, with the results the calls would have on that state, but is not saved; it is committed, or dropped, together with the first thread's block. Saved data changes only when a call outside blocks, or a block, of a thread ends normally and no other thread has changes pending. A thread that finds no other thread's changes pending gets exactly what it would from a connection of its own; so if no thread uses the connection while another is inside a block, blocks are all-or-nothing and calls outside blocks take effect one after the other. Setting autocommit counts for the calls of the setting thread only, but reading it gives what any thread set last. It does not hold that a call that returned normally outside blocks, or a block that ended normally, is saved.", "quantifier": "all kinds of calls, states, numbers of threads and interleavings of calls, assignments of autocommit, block entries and exits, with any commits failing", "why_tests_cant": "What is lost depends on the interleaving of threads and on how the first thread's block ends; tests with threads see a few interleavings, and a lost write shows only after another thread's block fails.", "anchors": ["citrine/storage/transaction.py:ThreadTransactionManager", "citrine/storage/transaction.py:autocommit", "citrine/connection/container_connection.py:ContainerConnection", "citrine/database/containerdb.py:ContainerDb.open"]}
{"id": "C125", "title": "Calling the methods of cloned classes", "statement": "Cloning the classes of a package wraps what is callable in them. A function that a class of the package defines, called on an instance of the clone or on the clone, and any callable called on the clone itself, does what it does when called so on the original, and its result is converted to the package's classes. A static method, a nested class or any other callable object, called on an instance of the clone, gets that instance as an additional first argument, which it does not on the original. A class method runs with the clone as its class and its result is not converted. What a class outside the package defines works as on the original, its result not converted. Calls on the originals do what they did before. It does not hold that static methods of a clone can be called on its instances like the original's, nor that every method's result is converted.", "quantifier": "all class hierarchies and packages whose cloning C80 covers, all methods of any kind with any code, arguments, states and conversions", "why_tests_cant": "Whether a call keeps its meaning depends on how the attribute was made, which class of the hierarchy defines it and whether that class is in the package; tests call some methods of some classes.", "anchors": ["jsonld/kamino.py:ClassCloner.wrap_callables", "jsonld/kamino.py:ClassCloner.clone_classes"]}
{"id": "C126", "title": "Sessions whose commits fail", "statement": "For every sequence of calls, assignments to conn.autocommit, with conn: blocks and reopenings on a new non-strict database, and for every choice of which commits fail and with which exception, what the program sees (every result and exception, how every block ends) and what is committed at the end are exactly those of a map with transactions: with autocommit on a mutator works on the committed map and its effect is committed or, if the commit fails, lost, in which case the call raises the commit's exception, autocommit is off and mutators raise TransactionFailedError until autocommit is assigned, a block is entered or left by an exception, or the database is reopened; a failing block loses everything done in it. This specification determines all of it.", "quantifier": "all sequences of operations with encodable ids and truthy objects, all commit outcomes, all capacities and collection sizes", "why_tests_cant": "the state depends on the whole history and on which of the commits failed", "anchors": ["citrine/connection/container_connection.py: ContainerConnection", "citrine/storage/transaction.py: TransactionManager, autocommit"]}
{"id": "C127", "title": "A group read after the databases' sessions", "statement": "For any list of databases, each made with ContainerDb.new, used by any session (with any commits failing) and closed or killed at its end, a GroupReadConnection over them reads for an id the object of the first database in the list whose committed map (that of C126) has the id, and None if none has it, whatever the order in which its tasks run; a database opened again reads as its committed map. That an id is in several of the databases is not reported. Entries of the root object other than the container survive (unless the file is truncated on creation); files without root or container cannot be read through a group, the exception comes out.", "quantifier": "all lists of databases, capacities, earlier file contents, sessions, commit outcomes, ids and task schedules", "why_tests_cant": "composes creation, histories with failing commits, reopening and concurrent reading", "anchors": ["citrine/connection/group_connection.py: GroupReadConnection.read", "citrine/database/containerdb.py: ContainerDb.new, open"]}
{"id": "C128", "title": "Opening a database module by its path", "statement": "DbModule(path) raises FileNotFoundError when path does not exist or has no __init__.py; otherwise it runs that file and calls its db(): whatever either raises comes out (AttributeError when there is no db), and else the module has the given path and the name of the database. Only path and its __init__.py are looked at. The DB_MODULE flag, which discovery requires, is not looked at: directories that DbGroup.discover skips can be opened. A file written by create_dbmodule itself never opens (ImportError), so DbModule.create always raises. The path of a module cannot be changed afterwards.", "quantifier": "all file systems, directories, source texts and outcomes of running them", "why_tests_cant": "all file systems and all outcomes of running the module", "anchors": ["citrine/cluster_tools/dbmodule/dbmodule.py:DbModule", "citrine/cluster_tools/dbmodule/dbmodule.py:import_db"]}
{"id": "C129", "title": "Which property a JsonProperty subclass registers", "statement": "For a class deriving directly from JsonProperty (no ancestor defines a property), __get_property_name__, __get_registration__, link_property and instantiation always give its one property's name and accessors, or raise ValueError when it has none or several, whatever was asked before of whatever class and however other classes were changed. In any hierarchy and history, every answer was true once of the class or an ancestor; refresh=True looks at the class's own dict as it is now; with single inheritance an answer stays the same until a refresh, whatever happens to the classes. But answers are cached on classes and inherited: a subclass with its own property answers with its parent's once the parent was asked; name and registration can belong to different properties; an override is registered only if asked for first; with two bases an answer can change without a refresh.", "quantifier": "all class hierarchies, class dicts and histories of questions, refreshes, links, instantiations, setattr and delattr", "why_tests_cant": "all hierarchies and histories of calls", "anchors": ["jsonld/base.py:JsonProperty", "jsonld/package.py:JsonLdPackage.link_property"]}
{"id": "C130", "title": "Reading attributes of JsonProperty instances", "statement": "Reading an attribute of a JsonProperty instance gives what ordinary lookup gives; an absent attribute raises ValueError, never AttributeError. So hasattr never returns False and getattr never uses its default: both raise, and so does everything that probes instances for optional attributes (copy, deepcopy, a contextual property's __context__). A property that raises AttributeError is replaced by the instance's own attribute of the same name if there is one, else by ValueError.", "quantifier": "all instances, attributes and outcomes of ordinary lookup", "why_tests_cant": "all attributes and outcomes", "anchors": ["jsonld/base.py:JsonProperty.__getattr__"]}
{"id": "C131", "title": "Connections to the past", "statement": "db.open(at=t) (before=t) gives the state that the last transaction with an id of at most t (below t) left: ValueError when both are given or t is in the future, POSKeyError when there was no transaction yet, IncompatibleDatabaseError when the root had no container then; transactions committed later do not change it. No program on such a connection commits anything. Programs that only read behave as on an ordinary connection to that state. A mutator outside a block that would change something raises ReadOnlyHistoryError, its changes are gone, and autocommit is then off; a with block runs its body, which sees its own changes, and raises on leaving unless nothing was changed, its changes gone.", "quantifier": "all transaction histories, times, programs (loops, branches, caught exceptions, blocks) and stored states", "why_tests_cant": "all histories and all programs", "anchors": ["citrine/database/containerdb.py:ContainerDb.open", "citrine/connection/container_connection.py:ContainerConnection", "citrine/storage/transaction.py"]}
{"id": "C132", "title": "Connections that are handed out again", "statement": "A database hands a closed connection out again at the next opening. Whatever was done with it before (failed commits, autocommit switched off, unfinished blocks), its calls and blocks show exactly what they would on a new connection, and commit the same. Only conn.autocommit tells them apart: it reports what any user of the connection assigned last, or True if a with block was left since, so that it may report False on a connection whose calls are committed one by one, and True when nothing is committed any more. Closing raises ConnectionStateError exactly when an object was changed in a transaction that has not ended, and the change is lost; otherwise closing loses nothing. It never raises in a program that neither switches autocommit off nor enters blocks.", "quantifier": "all programs of calls, assignments, blocks, closings and openings, all commit outcomes, capacities and collection sizes", "why_tests_cant": "the state of a connection depends on all its earlier users", "anchors": ["citrine/database/containerdb.py:ContainerDb.open", "citrine/connection/container_connection.py:ContainerConnection.autocommit", "citrine/storage/transaction.py:ThreadTransactionManager"]}
{"id": "C133", "title": "Working on the container by hand", "statement": "A program may also call write, delete, resize and condense on conn.container directly and read conn.capacity. On a new database that is the same as working on a map with a capacity: a direct write returns 1 when the id is new and None when it replaces, a direct delete returns the tuple of the object or an empty tuple, resize removes one group, condense none, and neither changes an object; the capacity after a resize depends on its arguments only and is at least the one asked for. Direct operations commit nothing: an autocommitted call that writes starts from what is committed and forgets them all, including a resize, while leaving a with block commits them with the rest; after a failed commit they raise TransactionFailedError.", "quantifier": "every sequence of calls, blocks, reopenings, assignments to autocommit and direct operations on a new database, with any commits failing", "why_tests_cant": "Whether a direct change survives depends on which operations come after it and how commits end; a test looks at one order.", "anchors": ["citrine/connection/container_connection.py: container, capacity, decorated methods", "citrine/storage/container.py: write, delete, resize, condense", "citrine/storage/transaction.py: transaction"]}
{"id": "C134", "title": "Changing a group while walking over it", "statement": "A walk over group.keys(), values() or items() during which the program operates on the group: no id is given twice, even if it is removed and stored again, and ids come collection by collection, ascending in each; a walk that comes to its end has given every id that was in the group all the time; what it gives is in the group, with that value, at that moment, so an id that was never there is never given. keys() and values() give the keys and values of what items() gives; without operations the walk gives the items. An operation is compatible with a walk unless it adds or removes an id of the very collection the walk is in; overwriting and operations on other collections always are.", "quantifier": "every reachable group and every interleaving of steps of the walk with inserts, updates, pops, popitems, setdefaults and clears", "why_tests_cant": "The items come lazily, so every interleaving of steps and operations is a different execution; tests walk over groups that do not change.", "anchors": ["citrine/storage/group.py: GroupView, GroupKeys, GroupValues, GroupItems, keys, values, items", "citrine/storage/collection.py: keys, values, items"]}
{"id": "C135", "title": "Sessions on a strict container", "statement": "A program that uses a database made with strict=True through a connection (create, update, delete, reads, iterations, with blocks, autocommit off and on, closing and opening again, commits that fail) sees a map with transactions whose ids are dealt out, by their hash, over n collections of m places each, n*m being the capacity reported and at least the capacity asked for. A write that would add an object when all n*m places are taken raises GroupCapacityError, one to an id whose collection is full raises CollectionCapacityError, even if the id is already there, and both leave the database as it was; everything else is as on an ordinary database. Neither what the program works on nor what is committed ever holds more than the capacity.", "quantifier": "all capacities and collection sizes in range, all sequences of operations, all ids and objects, and any choice of which commits fail and how", "why_tests_cant": "the state of each collection depends on the whole history and on the hash of every id; tests show some refusals, not that there are no others and that refusals change nothing", "anchors": ["citrine/storage/container.py: Container.new, Container.write, Container.delete", "citrine/storage/group.py: Group.insert, Group.update", "citrine/storage/collection.py: Collection.insert, Collection.update", "citrine/connection/container_connection.py: ContainerConnection.create, update, delete, read, autocommits"]}
{"id": "C136", "title": "The transaction log is an audit trail", "statement": "With a CitrineTransactionManager, whatever a program does through a CitrineConnection (calls, with blocks nested or not, catching exceptions) and whatever commits fail, the log accounts for the data: every committed state has its own TRANSACTION ... SUCCESSFUL record and differs from the one before only at ids that were named, under the same uuid, between the START and the SUCCESSFUL of that transaction; uuids are not reused and nothing is logged under a uuid before its start or after its end. Logging changes nothing of what the program does or sees. A call outside blocks logs START, its name and id, and SUCCESSFUL if it was committed, FAILED if it raised, neither if its commit failed. If no commit fails and blocks are not nested, every transaction that starts is logged as ended; otherwise not.", "quantifier": "all programs over the connection, all ids, objects and starting states, both kinds of manager, any choice of which commits fail and how", "why_tests_cant": "it relates the whole history of committed states to the whole log; tests look at the data or at single records after a few calls", "anchors": ["citrine/persistence.py: CitrineTransactionManager.__enter__, __exit__, autocommit", "citrine/connection/connection.py: CitrineConnection.create, update, delete, __enter__, __exit__"]}
{"id": "C137", "title": "The older container in a program that also expands it", "statement": "For every program of reads, writes, deletes, has() and expand_size() calls on a DbContainer, exceptions caught: reading an id gives what the last write or delete of it gave, of those made while the number of containers put the id into the same container as the present number does (nothing if there is none); has() and delete() find exactly the same (delete raises KeyError when there is nothing). So after expansions an older value can come back, and so can a deleted object: that a read gives the value written last, or that what was deleted stays deleted, is false. The number of containers is the largest one asked for and never falls; size changes by +1 for a write of an id that is not found, by -1 for a delete that succeeds, and not at all otherwise. The same holds of a CitrineConnection with a CitrineTransactionManager: its calls and expand_containers are those of the container, each committed on its own.", "quantifier": "all starting numbers of containers, all programs of calls with any ids and values and any number of expansions (accepted or refused), in any order", "why_tests_cant": "which write is found depends on the whole history of writes and expansions; a test tries one history", "anchors": ["citrine/persistence.py:DbContainer", "citrine/persistence.py:DbContainer.expand_size", "citrine/persistence.py:DbContainer.__locate_container"]}
