# Formal model of i2mint/stream2py in Rocq (Coq 8.16.1)

Properties: `properties.jsonl`. Theorems per property and status: `MANIFEST.json`.
Tests of the theorems against wrong programs: `seeded/LOG.jsonl`. Development:
`rocq/theories` (build order in `rocq/_CoqProject`).

## Layers

Model files (`*M.v` and the two Python files) contain definitions only, each with the
file and lines it models. Specification files (`Spec*.v`) contain the vocabulary of the
statements and no algorithm of the model. `Props*.v` contain the property theorems (name
`Cnn_...`), each followed by `Print Assumptions` and by an `Example` showing a concrete
case that meets its hypotheses. All other files are proofs.

| model | code | form |
|---|---|---|
| `PyVal.v` | Python values, exceptions, `==`, `<`, `>` | total functions, exceptions as values |
| `PyLib.v` | `bisect`, `deque`, `list`, `islice`, `sorted` as the repo calls them | CPython's loops, with fuel proved sufficient |
| `SortedDequeM.v` | `utility/sorted_collection.py`, `utility/sorted_deque.py` | a method is state -> state * outcome, so half-done mutations are visible |
| `SortedCollM.v` | `utility/sorted_collection.py` as a class of its own, with slices | as above; in lock step with `SortedDequeM` |
| `RWLockM.v` | `utility/reader_writer_lock.py`, `utility/locked_sorted_deque.py` | small-step; any number of threads; each lock operation, counter load, counter store and deque mutation is one step |
| `LockInterruptM.v` | the lock alone, with an exception that may hit any thread at any step | small-step, integer counters |
| `DequeObjM.v` | `__reduce__`, `to_jdict`, `from_jdict`, `__repr__` and `_given_key` of `SortedDeque` | on top of `SortedDequeM` |
| `BufferReaderM.v` | `buffer_reader.py` | methods over a snapshot, in a monad that records lock events |
| `BufferSysM.v` | one buffer with any number of readers | sequential state machine |
| `ReaderStepsM.v` | the same reader calls, access by access, with `RWLockM` underneath | small-step; any number of threads and readers; each probe of a binary search, `len`, indexing, cursor load and cursor store is one step |
| `StreamBufferM.v` | `stream_buffer.py` | small-step over schedules: callers of start/stop/mk_reader/next/drop, all reading threads (also those of earlier starts), all readers, for loops; the answers of the source are inputs |
| `StreamSourceM.v` | `stream_source.py` | on top of `StreamBufferM` |
| `SourceRaceM.v` | `stream_source.py:67-126`, several client threads, one attribute access a step | on top of `StreamBufferM` |
| `ReaderAttrM.v` | `buffer_reader.py:83-84, 433-450`, `stream_source.py:133` | client programs over reader objects: nested `with` and `try` blocks, `onclose` as an attribute |
| `AttachRaceM.v` | `stream_buffer.py:76-78, 207-218`: `attach_reader()` as two assignments | on top of `StreamBufferM` |
| `NextRaceM.v` | `buffer_reader.py:158-174`: `next(reader)` as two steps, the read and the look at `is_stopped` | on top of `StreamBufferM` |
| `TimedM.v` | `stream_buffer.py:186-190, 252-271`: the stream with a clock | on top of `StreamBufferM`; bounds for one read, sleep, close and line |
| `AutoDropM.v` | `stream_buffer.py:138, 165-175, 252-264`: `auto_drop` assigned at run time | on top of `StreamBufferM` |
| `StreamFaultM.v` | `stream_buffer.py:177-184`: `start()` hit by an exception at any point | on top of `StreamBufferM` |
| `CallbackM.v` | `stream_buffer.py:177-236, 252-295`: `open()`, `info`, `read()` and `close()` of the source call the stream | on top of `StreamBufferM`; one call at a time per method |
| `ChainM.v` | `stream_buffer.py:252-272`, `buffer_reader.py:158-174`: a source whose `read()` is `next(reader)` of another stream | two `StreamBufferM`s with a joint step; `next(reader)` is one step of the upstream |
| `WanderM.v` | `stream_buffer.py:68-78, 192-218`: a reader that is attached to several streams | any number of `StreamBufferM`s and one reader outside them; a call on the reader is one step |
| `SleepM.v` | `stream_buffer.py:142-147, 264`: which sleep times `time.sleep` takes | on top of `StreamBufferM`, where the outcome of a sleep is arbitrary |
| `StreamFineM.v` | `stream_buffer.py` with `auto_drop=True`, calls on readers and appends access by access as in `ReaderStepsM` | `StreamBufferM` outside the buffers, `ReaderStepsM` inside; not in it: `next(reader)`, `next(stream_buffer)`, for loops, two threads on one reader. A client thread may be in calls on different buffers at once, which is more than the code allows |
| `StreamWithM.v` | `stream_buffer.py:243-250` (`with stream_buffer:`) | on top of `StreamBufferM` |
| `StreamClientM.v` | `stream_buffer.py:156-158, 239-241` (`join()`, `for x in stream_buffer`) | on top of `StreamBufferM` |
| `SourceIterM.v` | `stream_source.py:69-77, 159-165` | attribute lookup by the names bound in class bodies |
| `SourcesM.v` | `simply.py`, `examples/source_reader.py` | answers of these sources, and the `mk_stream_buffer` context |
| `ReaderClassM.v` | `source_reader.py`, `sources/http.py` | iteration, `closed`, request and response handling |
| `UtilM.v` | `util.py`, `defaulted_values` | small object model for `ContextualizeCall` |

| specification | used for |
|---|---|
| `Spec.v`, `SpecDeque.v` | linear scans, key order, families of mutually comparable keys |
| `SpecLock.v` | who is inside, what a writer body does as a whole |
| `SpecReader.v`, `SpecLog.v` | log with retention window and integer cursors |
| `SpecLin.v` | histories with an instant per call (linearizability) |
| `SpecStream.v` | projections of the trace, grammar of a thread's life, sessions |
| `SpecSource.v`, `SpecSources.v`, `SpecReaderClass.v`, `SpecUtil.v` | the remaining modules |

Concurrency is handled in four steps. `RWLockM` interleaves single lock operations and
single deque mutations and proves that sections are atomic (C12, C13). `ReaderStepsM` adds
the reader calls access by access and proves that every concurrent history of calls is one
of `BufferSysM`, where calls are atomic (C80). `StreamBufferM` then takes the
deque's `append` and `drop` and one reader call as one step, and interleaves everything
else: event checks, source calls, the two halves of `stop()` and of
`next(stream_buffer)`, and the load of the attribute `self.source_buffer` separately from
the `len`, `append` or `drop` of the buffer that was loaded. `len` takes no lock: there a
`drop(n)` has as many steps as it removes items, and `len` may fall between any two (C109).
`StreamFineM` undoes that abstraction for `auto_drop=True` (calls and appends access by access,
on any number of buffers and starts), and C111 proves that nothing is lost by it: what can be
seen there is what can be seen in `StreamBufferM`, with one instant for each call.

Except in `TimedM`, time is not modelled: a sleep is a point where any number of other steps
may happen, and the one second that `stop()` sleeps guarantees nothing. `TimedM` has a clock,
and C107 says what that second is good for.

## How each group is proved

* C01-C11, C68-C70, C97, C101, C102 (sorted containers): invariants by induction over operation lists;
  binary search against a linear scan, for every family of keys on which `<` is a strict
  total order (ints, finite floats, strings, bytes and tuples of these are proved to be
  such families in `Families.v`).
* C12-C18, C91 (lock): an inductive invariant that counts threads per program counter; a
  decreasing measure for termination; for C91 a cycle of two writers that can be repeated.
  C96 (interrupts): schedules that break the lock, and a simulation by `RWLockM` for interrupts
  that only hit section bodies.
* C19-C36, C71, C84-C86 (readers): refinement of deque plus readers to a log with cursors, and
  per-call theorems stated with linear scans; loops over arbitrary sequences of what the
  environment shows them.
* C80-C83, C98 (threads on one buffer): a forward simulation from single accesses to calls;
  the instant of a write is the end of its body, that of a reader call the end of its
  outermost section. Programs are shown to look at the deques only inside sections.
  The only condition is that calls on one reader do not overlap; C98 combines the explanation
  of a history with the sequential theorem C22. C111, C112: the same simulation with a stream
  around the buffers; C113: a pair of threads that block each other, kept by every step; the
  positive part by a lock invariant (somebody can always move) and a well-founded order on what
  is left of the programs and lock operations of all threads (`FineLive.v`). C17 on one buffer: the same two (`LinLive.v`).
* C37-C51, C67, C72-C75, C88, C92-C95, C99, C100, C103, C104, C106-C110, C114-C117 (streams): invariants over all schedules; a grammar of thread
  lives; refinement of one reader's view of a concurrent history to the sequential log.
* C52-C56, C76 (StreamSource): histories of client operations over the stream model. C87, C105: an
  invariant over interleavings of client threads, and four schedules that break the property.
* C57-C59, C66 (simply, counter), C60-C65, C77-C79, C89, C90 (util, source classes, http):
  function-level theorems and streams on concrete sources.

No property is out of reach of an executable model. Where wall-clock time or the OS
matters (C36, C39, C43, C44) the model has "any schedule" instead; C107 adds a clock.

## Findings

The following properties are false of the code; each has a theorem `..._refuted` (a
witness, or a statement for every history) and, where something weaker holds, a theorem
`..._partial`. The MANIFEST status of these properties is "partial".

| property | what the code does |
|---|---|
| C11 | `copy()` re-sorts: items with equal keys change their order |
| C17 | `range(only_new_items=True)` takes the reader lock twice; with an append waiting in between, both block for ever |
| C25 | `read()` ignores the reader's `peek` default |
| C27 | `strict_n` is off by one, and raises under `ignore_no_item_found` |
| C32 | `IndexError` instead of `ValueError`; `TypeError` with an identity key |
| C35 | a for loop can miss items appended just before the stop |
| C39, C40, C44 | `stop()` does not join: a slow thread survives a restart, appends to the new buffer, stops the new session, closes its source |
| C45 | `is_running` is True after a failed start |
| C46 | `source_reader_info` is None while the buffer is empty |
| C47, C73 | `next(stream_buffer)` stays on a failed session; `TypeError` if `stop()` intervenes |
| C48 | an append or `drop()` that has loaded the buffer before a restart still changes the old session |
| C51 | `auto_drop=False` with `maxlen=None` kills the thread |
| C53, C54, C55, C56, C76 | `StreamSource`: closing twice, reopening, `reader_cls`, readers of `mk_reader` as context managers, a failed first open |
| C58, C59 | `mk_stream_buffer`: enumerated None is data; `StopIteration` of `open_stream` becomes `RuntimeError` |
| C60, C61 | `ContextualizeCall`: nested wrapping; unchecked exit signatures |
| C63, C64, C77, C78 | http reader: method and body dropped, `closed`, end of response, byte count |
| C68, C69 | assigning `key` loses `maxlen`; a rejected `maxlen` leaves the container unbounded |
| C71 | a for loop with `strict_n` raises for want of data |
| C72 | a start that fails after `open()` leaves the source open |
| C87 | `StreamSource` from several threads: lost counter updates, `StreamNotStartedError`, two streams on one source, `close()` stops the wrong one |
| C89, C90 | `StreamSource` has no `is_stopped` and no `timestamp_seconds_to_unit_conversion`: iteration and `get_timestamp()` raise `AttributeError` |
| C91 | two writing threads can keep a reader waiting for arbitrarily many writes |
| C96 | a `KeyboardInterrupt` while waiting for the lock: `finally` releases what was not acquired; two writers inside, a writer beside a reader, or no reader ever again |
| C97 | a rejected key assignment changes later `copy.copy`, pickles and `repr`; `clear()`, `maxlen =` and `copy()` make a keyless container unpicklable |
| C101 | `count()` of NaN differs between `SortedDeque` and `SortedCollection`; a `SortedDeque` cannot be sliced |
| C100 | `attach_reader()` leaves the `source_reader_info` of the earlier session |
| C106 | `StopIteration` from `next(reader)` can miss items appended before the stop, and is not final |
| C108 | one more item may be pushed out after `auto_drop = False` |
| C110 | a `start()` hit after `open()` leaves the source open and `is_running` True |
| C113 | the deadlock of C17 hangs a stream for good: the source is never read again nor closed, also after `stop()`; proved for histories in which no client calls `range(only_new_items=True)` |
| C114 | `open()` or `info` of a source that asks `is_running` or calls `mk_reader()`, `attach_reader()`, `start()` of its own stream hangs for good, and `start()` with it: the lock is not reentrant |
| C117 | a sleep time that is negative, NaN or too large is accepted, and ends the stream and closes the source at the first None, or when the buffer is full (`auto_drop=False`) |
| C104 | `attach_reader()` is two assignments: a loop that runs in between sees the new buffer and the old stop event, and ends |
| C82 | a `BufferReader` used by two threads delivers an item twice, or raises `TypeError` |

For C51, C54, C56, C71, C72 and C76 to C78 the `_partial` theorems state the
conditions under which the property does hold (working configurations, chunks
that are full, readers made by `open_reader`, a clock that moves, and so on).

## Trusted base

* Coq's kernel (8.16.1), including its `vm_compute` (used for concrete examples and
  witnesses). No plugin, no `native_compute`, no axiom: `Print Assumptions` says "Closed
  under the global context" under every property theorem. The checker lists seven axioms
  `Coq.ssr.ssrunder.Under_rel.*` of a library file that is loaded; no theorem uses them.
* The reading of the Python code that the comments of the model files record.
* These facts on CPython, recorded where they are used: the loops of `bisect`; `deque`
  with `maxlen`; `islice`; tuple, str and numeric comparison; `threading.Lock`, `Event`
  and `Thread`; `contextlib.contextmanager` and PEP 479; `functools.wraps`; the range of `time.sleep`; `sorted` is
  stable and, on a total preorder, gives the sorted list.

## What is not modelled

* Items and keys are the values of `PyVal.pyval`: None, bool, int, float, str, bytes,
  tuples of these, and opaque objects compared by identity. Key functions are arbitrary
  (possibly raising) functions of the item, without side effects. User classes with their
  own `__lt__` or `__eq__` are not modelled, except as keys of a family as above. Two NaN
  objects are identified in identity tests.
* Single bytecodes below the steps named above; asynchronous exceptions
  (`KeyboardInterrupt`) outside the lock and `start()` (`LockInterruptM`, `StreamFaultM`), signals, memory exhaustion, interpreter shutdown, `__del__`,
  daemon threads at exit, log output, warnings, docstrings, type hints.
* `source.read()` takes effect when it returns. `key` and `maxlen` of a
  stream are not changed after construction (nor `auto_drop`, except in `AutoDropM`); `attach_reader` is given readers of the same
  stream (except in `WanderM`); the sleep times of for loops over readers and sources are valid arguments of `time.sleep`.
* `StreamSourceM`: client calls (open_reader, close, configure_buffer, exit) do not
  overlap each other (for those that do, see `SourceRaceM`); the reading thread and the
  readers run concurrently with them.
* `int()` of strings with blanks, underscores or non-ASCII digits; floats beyond their
  rational value (`PyVal` compares exactly, as CPython does).
* `pack.py`, `setup.py`, `docs`, `tests`, and the `__main__` demo code.
