# Formal model of rdkcentral/rbus in Rocq (Coq 8.16.1)

The code under /repo is read as text. Each C function that matters for a
property is transcribed into a total, computable Gallina function that carries
a comment with the file and the lines it models; the properties in
`properties.jsonl` are stated against small independent specifications and
proved for all inputs, histories and schedules.

## Layout

`rocq/theories/` (logical prefix `Verif`), one group of files per subsystem `X`:

* `XModel.v`  - the model: definitions only, every one citing /repo.
* `XSpec.v`   - the independent specification (what a reader must trust).
* `XProofs.v` (and further files `X*.v`) - lemmas.
* `XProps.v`  - the property theorems `Cnn_...`, an `Example Cnn_witness` with a
  concrete case that meets the hypotheses, and `Print Assumptions` under each theorem.

A theorem whose name ends in `_refuted` is a counterexample to the full English
property: the code as written violates it. The theorems next to it prove the
property under the condition under which it holds; `_partial` marks a theorem that
covers only part of its property.

## Conventions

* Bytes are `Z` in [0,256); strings are `list Z` without the terminating NUL.
* C integers are `Z` with the wrap or truncation written out wherever the code
  path can exceed the range.
* Undefined behaviour (out-of-bounds access, NULL dereference, use of freed
  memory, a loop that does not end) is a distinct outcome of the model function,
  never a default value.
* Heap structures are modelled by value when the code has no aliasing that a
  property depends on; otherwise by an explicit heap.
* Concurrency: each thread is a small program whose atomic steps are the C
  statements that touch shared state; theorems quantify over all interleavings
  (an inductively defined reachability relation). Memory is sequentially consistent.

## Trusted base

* Coq's kernel (8.16.1), including its virtual machine (`vm_compute` is used for
  closed computations: concrete cases, refutations and finite sweeps).
* Axioms: none are declared. `Print Assumptions` reports "Closed under the global
  context" for every property theorem, that is, no axiom at all. A checker
  that lists the axioms of all *loaded* libraries also sees seven from Coq.ssr.ssrunder (Under_rel,
  Under_relE, under_rel_done and so on); the standard library's lia loads that file, and
  no theorem here uses them.
* The transcription of the C code recorded in the comments of the `*Model.v` files, with the
  simplifications stated there. It was made by reading; the code was not run.
* msgpack-c, cJSON, libc and pthreads are modelled by their documented
  behaviour, as stated where they are used. Memory allocation succeeds unless a model says otherwise.

## What is modelled


* **Addr** - Model of the texts naming a broker's socket: src/rtmessage/rtSocket.c. A text is a C string without its terminator. The address of a network interface (ioctl SIOCGIFADDR) and inet_pton for AF_INET6 are parameters.
* **Advice** - Model of the notices of connecting and disconnecting clients: the broker's side, src/rtmessage/rtrouted.c, and that of the programs, src/core/rbuscore.c and src/rbus/rbus.c. The broker's routes are those of RouterModel, the notice is the text message of JsonModel. A client is named by the number of its connection; a program by a number, and it has one handle and hence at most one connection. Simplifications: what is sent arrives, at once and in order; printing and parsing of the notice are not modelled (as in JsonModel); answers of the broker to its clients are left out (they are in RouterModel); a direct handle cannot be closed once the program's handle is (that uses freed memory and is UB here).
* **Base64** - Model of src/rtmessage/rtBase64.c. Bytes and characters are numbers from 0 to 255; a buffer is the list of what it holds. Simplification: malloc succeeds; logging is left out.
* **Buffer** - Model of src/rbus/rbus_buffer.c, and of the binary codecs built on it: rbusValue_Encode/Decode (src/rbus/rbus_value.c) and rbusFilter_Encode/Decode (src/rbus/rbus_filter.c). The host is little-endian; allocation succeeds; positions stay below 2^31 (simplifications).
* **Cache** - Model of the file in which a provider keeps its subscriptions over restarts: src/rbus/rbus_subscriptions.c:435-701. Simplifications: the files can be opened, written and removed; whether a listener is still there (`there`: its process runs and its componentId's marker file exists, 395-433 and 578-603) is an input; a bool read through an int pointer takes the low byte (the other three go into padding).
* **Compare** - Model of rbusValue_Compare (src/rbus/rbus_value.c:872-1010), rbusProperty_Compare (src/rbus/rbus_property.c:133-147), rbusObject_Compare (src/rbus/rbus_object.c:113-238) and rbusFilter_Apply (src/rbus/rbus_filter.c:116-176). The two operands are different objects in memory (the pointer equality shortcut only fires for two NULLs); results of strcmp and memcmp are represented by their sign.
* **Consume** - Model of the subscriptions a consumer holds (handle->eventSubs and the pending asynchronous ones): src/rbus/rbus.c:308-324, 1362-1391, 1426-1494, 4950-5219, 5386-5840. Simplifications: calls on one handle do not overlap; what the retries of a synchronous subscribe end with is an input here (it is the subject of RetryModel); the private listeners of raw data subscriptions and the initial event of publishOnSubscribe are left out.
* **Core** - Model of the provider side of src/core/rbuscore.c: server objects, their methods, events and listeners. Vectors are lists (VecList); all calls happen under the module's lock (single threaded); log messages are not modelled.
* **Crowd** - Model of the broker's main loop with several clients that send at the same time: src/rtmessage/rtrouted.c:1892-1973, over the stream reader of FramingModel and the routing of RouterModel. Simplifications: the bytes a client sends are given at the beginning and each turn takes the next part of some client's (a client that has not yet written them is not chosen); select reports clients in any order; registrations are requests as in RouterModel, served at any moment, and not bytes of the streams; sendmsg takes what it is given.
* **Direct** - Model of direct connections end to end: the provider's list of them and its threads (src/core/rbuscore.c:2437-2847, 1818-1876), its handling of the requests to open and close one (src/rbus/rbus.c:2741-2842), the server loop of one connection (src/rtmessage/rtrouteBase.c:150-257, 512-664), and the calls of the consumers (rbuscore.c:1111-1189, 2948-3099; rbus.c:3079-3161). Simplifications: one provider; its addresses are unix sockets (the default) and binding one succeeds; a consumer's calls are made by one thread and not interrupted, except that its connecting takes time (`Open` and `Attach`); one publisher; how bytes travel on a connection is the subject of LinkModel; the cache file of the list is not modelled (reading it has no effect). A consumer is known by its inbox name, which is the same for all connections of a process (rtConnection.c:585 with rbuscore.c:646, 2965).
* **Disc** - Model of discovery: the broker's answers (src/rtmessage/rtrouted.c:890-1148) and what the client library makes of them (src/core/rbuscore.c:1880-2306, src/rbus/rbus.c:3411-3462). An answer either arrives as sent or not at all (`lost`; how it travels is the subject of RouterModel, PendModel and FramingModel), and allocation succeeds.
* **Dm** - Model of the data model library: queries by name, the providers that answer them and what is reported (utils/dataProvider: dmUtility.h, dmProviderDatabase.cpp, dmProviderHost.cpp, dmProvider.cpp, dmProviderInfo.cpp, dmQueryResult.cpp, dmValue.cpp, dmClient.cpp). Simplifications: the database is what has been loaded from the model directory (the reading of its files is not modelled) and the client and the hosts have the same; requests and responses are carried as they are (their JSON is the subject of JsonModel and their way that of RouterModel) or not at all; numbers in floating point and status messages are left out; a provider is asked through dmProvider's own doGet and doSet for lists of parameters.
* **Elem** - Model of the element tree of a provider: src/rbus/rbus_element.c, the row functions of src/rbus/rbus.c and the insertion part of rbus_regDataElements. Simplifications: fullName is the path and is not stored; the callbacks of an element are the number `hid`, and `getter` says whether there is a getHandler; table sync handlers (which may call back) are taken to be absent; locks and subscriptions are left out.
* **Framing** - Model of the stream reader of the broker: rtConnectedClient_Read in src/rtmessage/rtrouted.c:1513-1643. src/rtmessage/rtrouteBase.c:335-464 is the same code for direct connections. The socket is a list of bytes not yet received; every recv returns a prefix whose length is chosen by the environment (`k`, clamped to what recv may return). Simplifications: default build (no MSG_ROUNDTRIP_TIME, no benchmarking); memory allocation succeeds; bytes of the buffer that were never received (malloc/realloc contents) are zero.
* **Guard** - Model of what each function does with the mutexes of a process: src/core/rbuscore.c, src/rbus/rbus.c, rbus_handle.c, rbus_message.c, rbus_asyncsubscribe.c, rbus_valuechange.c, rbus_intervalsubscription.c and rbus_element.c. A function is its control flow with the mutexes it takes and gives back and the places where it touches data that a mutex guards. Simplifications: conditions are choices, so a function may do more here than in the code (where two conditions go together the branches are written out); there is one handle and one element; the mutexes of the message layer below (rtConnection.c) are left out; whether another thread has a mutex is left to C40 and C64; branches for a null entry in a list of rbus's own are left out (no null is ever put in).
* **Handle** - Model of the handle list (src/rbus/rbus_handle.c) and of rbus_open / rbus_close (src/rbus/rbus.c) as far as handles, component ids and the broker connection go. Not modelled here: what closing does to subscriptions, elements and listeners.
* **HashMap** - Model of src/rtmessage/rtHashMap.c with the default (string) key functions. Buckets and the node vectors inside them are rtVectors; they are modelled as lists, which C17 justifies. Values are pointers (NULL = 0). Simplifications: allocation always succeeds; keys are non-NULL C strings that do not alias the map's own key copies; the load comparisons, done in float on quotients by a power of two, are written as exact integer comparisons.
* **Header** - Model of src/rtmessage/rtMessageHeader.c and the parts of rtEncoder.c it uses, in the default build (MSG_ROUNDTRIP_TIME is OFF in /repo/CMakeLists.txt:98).
* **Info** - Model of the memory of the element information a program gets (src/rbus/rbus.c). Simplifications: memory never runs out; realloc always moves; the type and access of an element are left out.
* **Interval** - Model of the thread that serves one interval subscription, src/rbus/rbus_intervalsubscription.c:105-214 PublishingThreadFunc. Times are milliseconds since the thread started; reading and publishing take no time.
* **Json** - Model of the text messages of src/rtmessage/rtMessage.c: fields by name in a JSON object. The JSON library (cJSON) is not part of the repository; what is used of it is modelled as its documentation and sources (1.7) describe it. Strings are lists of bytes without the terminator. Simplifications: allocation succeeds; a double is a fraction `p / 2^q` (no NaN or infinity); names are not null; the counter of references is left out (C50); printing and parsing are not modelled.
* **Legacy** - Model of values in the legacy (CCSP) text format, in the messages of reads and sets: src/rbus/rbus.c:77-95 (the type codes), 408-477 (_parse_rbusData_to_value), 496-526 (rbusValue_initFromMessage), 609-631 (rbusProperty_initFromMessage), and the three places that read values another component sent: rbus_get (3509-3558), _getExt_response_parser (3562-3618) and _set_callback_handler (1496-1672). Everything else is that of ParamModel. Simplifications: legacy values inside property lists and objects stay outside the model (`Err`), as does a message that ends in the middle of a text; what strtof, strtod and strptime make of a text is a parameter.
* **Link** - Model of a client's end of the connection to the broker: how rtConnection_SendInternal puts messages on the socket (src/rtmessage/rtConnection.c:1112-1232), how the reader thread takes them off it (470-515, 1478-1600, 1863-1905), and how the broker passes a message on (src/rtmessage/rtrouted.c:612-718). The socket is a list of bytes; what recv and sendmsg return is chosen by the environment. Simplifications: default build (no encryption, no MSG_ROUNDTRIP_TIME); memory allocation succeeds; the reader thread reads without a timeout (1872) and is not told to stop.
* **List** - Model of src/rtmessage/rtList.c with an explicit heap of nodes. An rtListItem is an address: `None` is NULL, `Some i` the i-th allocated node. Nodes are never returned to the allocator before rtList_Destroy, so an address stays valid. Data are pointers (NULL = 0). Simplifications: allocation always succeeds; a destroyer is a flag (it frees what data points to, which the list never looks at again); RT_LIST_ERROR_CHECKING is off.
* **Listen** - Model of a connection's listeners and of the queue between its reader and callback threads, src/rtmessage/rtConnection.c. A listener's callback and closure are one number; a message is named by the number of its arrival. Steps are what each thread does under one lock; sending to the broker always succeeds. Aliases (1359-1436), reconnecting and shutting down are left out.
* **Lock** - Model of the locking in the provider side of rbus: which mutexes the threads take and release, in which order, and which threads they join. A thread is the list of its remaining lock operations; loops appear with every number of iterations. What is computed between the operations, and the mutexes of the message layer below, are left out.
* **Method** - Model of method calls: the provider's handler src/rbus/rbus.c:2457-2564 (_method_callback_handler) and rbusMethod_SendAsyncResponse (6201-6238), the callers rbusMethod_Invoke (6036-6137) and rbusMethod_InvokeAsync (6139-6199), with the messages between them. Simplifications: the program's handler is a function of the name and the in parameters; table sync handlers are absent; allocation does not fail; what a program receives is the content the other one wrote (see LinkModel for the transport).
* **Msg** - Model of rbusMessage (src/core/rbuscore_message.c) on top of the MessagePack format as implemented by msgpack-c's packer and msgpack_unpack_next. Simplifications: packing never fails (sbuffer allocation failure is not modelled); the bytes of arrays, maps, extensions, nil and booleans are recognised but not parsed, since every getter rejects them; 32-bit floats, which rbus never writes, are treated the same way. After a failed getter the read position is not modelled (failure is `Err`).
* **Names** - Model of the queries for the names of elements and rows: the provider's handler src/rbus/rbus.c:2118-2335 (_get_parameter_names_recurse, _get_parameter_names_handler) over the element tree of ElemModel, and the callers rbusTable_getRowNames (4666-4765) and rbusElementInfo_get (4788-4895), with the messages between them. Simplifications: the names are written as one list (the walk that counts and the walk that writes are the same function called twice); table sync handlers are absent; allocation does not fail; what a consumer receives is the content the provider wrote (see LinkModel for the transport).
* **Notify** - Model of events from a provider to its subscribers, through the messages between them: subscribing with and without an initial value, unsubscribing, publishing and the delivery to the handlers. src/rbus/rbus.c:888-951, 1426-1494, 2565-2735, 4925-5219, 5913-6034, src/core/rbuscore.c:702-770, 1452-1529, 1832-1878. The provider's registry is that of SubsModel, the subscriptions of each component that of ConsumeModel. Simplifications: one provider, which stays reachable; its elements do not change; a component is known by its number within its process, a process by its inbox; requests are served and events delivered one at a time, in the order they are made; no raw data, no private connections; what a program receives of a request or an answer is the content the other one wrote (see LinkModel for the transport), events are received with their metadata; sending an event either works or the event is lost; initial values of tables and of names with wildcards are left out.
* **Own** - Values, properties, objects and filters in memory: who points to whom, how often each is referenced, and when it is given back to malloc.
* **Param** - Model of reading and setting one parameter: the provider's handlers src/rbus/rbus.c:1496-1672 (_set_callback_handler), 1956-2116 (_get_single_dml_handler, _get_callback_handler) over the element tree of ElemModel, and the callers rbus_get (3465-3560), _getExt_response_parser (3562-3616), the typed getters (3904-3966), rbus_set (3969-4061) and the typed setters (4398-4453), with the messages between them. Simplifications: a handler is a function of the caller's name, the parameter's name and the value; get handlers that rename the property do so only when asked for that property alone; set requests that ask for a rollback (only rbus_setMulti sends them, see TransModel) are `Err`; table sync handlers are absent; allocation does not fail; which component a change is attributed to is left to WatchModel; what a program receives is the content the other one wrote (see LinkModel for the transport).
* **Pend** - Model of requests waiting for their responses, src/rtmessage/rtConnection.c. A request is named by the number of its call; its queue entry lives in the frame of rtConnection_SendRequestInternal, so it can be written to until that call returns. Every message is named by the number of its arrival. Steps taken under con->mutex are one step, except that the reader's search and its write are two, because a request that has timed out leaves the list without the mutex. Nested requests made from the reader thread, reconnecting and destroying the connection are left out.
* **Pool** - Model of the thread pool: src/rtmessage/rtThreadPool.c. A step is what one thread does from taking the pool's mutex to giving it up. Simplifications: memory is not exhausted; which waiting thread a signal wakes is an input; the passing of time is the step `Expire` of a waiting thread, and the end of a bounded wait may come at any moment.
* **Priv** - Model of the client side of private (direct) connections in src/core/rbuscore.c and of rbus_openDirect / rbus_closeDirect. The list of entries is gListOfClientDirectDMLs; connections are numbered in the order they are created; the remote provider's answers are arguments.
* **Raw** - Model of raw data subscriptions and the direct connections beside them: src/rbus/rbus.c 338-406, 3079-3161, 4950-5019, 5021-5333, 5454-5492, 5848-5905 on top of the message listeners of TapModel. Simplifications: one consumer with one handle that stays open, and only its raw data subscriptions without filter; calls and messages do not overlap; an entry of eventSubs is freed together with its subscription, so the name is kept in the entry; a provider is a counter of subscription numbers and the list of what it holds; the broker delivers to the listeners of the connection.
* **Recon** - Model of reconnecting to the broker: rtConnection_ConnectAndRegister of src/rtmessage/rtConnection.c, which the reader thread and every sending thread of a connection call when they find the connection broken. The listeners are those of ListenModel. A socket is named by the number of its creation. A step is what a thread does under a lock or in one system call; the clock only goes forward (CLOCK_MONOTONIC, rtTime.c 29). Simplifications: the second, unlocked look at reconnect_in_progress (337) is part of the locked step before it; sending one listener again (427-437) is one step, though the code does not hold the lock of the listeners; the key exchange (444-466) is left out.
* **Ref** - Reference-counted values, properties and objects in memory: src/rtmessage/rtRetainable.c, src/rbus/rbus_property.c, src/rbus/rbus_object.c.
* **Reg** - Model of rbus_regDataElements and rbus_unregDataElements (src/rbus/rbus.c) with rbus_addElement and rbus_removeElement (src/core/rbuscore.c) and the alias requests of src/rtmessage/rtConnection.c, on top of the broker (RouterModel) and of the component's own element tree (ElemModel). Left out: the checks of the handle and of the component's name (3281-3291), the restoring of cached subscriptions after an insertion (3341-3343, see CacheModel), and the case that the component has no listener (rtConnection.c:1398-1400).
* **Retain** - Model of src/rtmessage/rtRetainable.c under interleaving: threads that share one reference-counted object. Each atomic access is one step; a schedule is a list of steps. Sequential consistency of the atomics is assumed (the C11 default).
* **Retry** - Model of the retries of a subscription: the loop of the synchronous call, src/rbus/rbus.c:5056-5219, and the thread that works off the asynchronous ones, src/rbus/rbus_asyncsubscribe.c. Times are milliseconds.
* **Route** - Model of src/rtmessage/rtRoutingTree.c, the broker's topic tree. A topic is named by the path of its names (siblings have different names, so pointers to topics are paths); the rtTreeRoute objects are numbered in the order they are allocated, and a number that is no longer among the live ones is a dangling pointer.
* **Router** - Model of the broker's clients and messages, src/rtmessage/rtrouted.c, on top of the routing tree. Clients are numbered; a route entry is named by the number of its allocation (memory reuse is not modelled, as in RouteModel). Sending to a socket always succeeds; advisory messages (rtrouted.c:782-788, 1233-1253), tracing and encryption are left out.
* **Row** - Model of adding and removing table rows from another component: the provider's handlers src/rbus/rbus.c:2336-2449 (_table_add_row_callback_handler, _table_remove_row_callback_handler) over the element tree of ElemModel, and the callers rbusTable_addRow (4455-4535) and rbusTable_removeRow (4537-4597), with the messages between them. Simplifications: a handler is a function of what it is called with; what registering and unregistering a row does to subscriptions is left to SubsModel; table sync handlers are absent; allocation does not fail; arguments are not NULL; what a program receives is the content the other one wrote (see LinkModel for the transport).
* **Rowmem** - Model of the memory of the list of rows a program gets (src/rbus/rbus.c). Simplifications: memory never runs out; the reply holds as many rows as it says; the text of a row's full name is given (it is the subject of NamesModel); the nodes are written into the array together when all are made, not one by one.
* **Sem** - Model of src/rtmessage/rtSemaphore.c under interleaving. Every critical section is one step; condition-variable waits end by a signal, by the clock or spuriously.
* **Session** - Model of the session manager (src/session_manager/session_manager.c) and the client functions that use it (src/rbus/rbus.c:6240-6388). Simplifications: the method calls are answered (communication failures are not modelled) and the manager handles one request at a time, as its callback thread does.
* **Skip** - Model of dropping a message there is no memory for (src/rtmessage/rtConnection.c, rtrouted.c). Simplifications: a socket is the list of bytes sent on it and not yet read, and whether the sender has closed it; sockets block (no O_NONBLOCK and no timeout is set in src/rtmessage).
* **Subs** - Model of a provider's subscriptions: src/rbus/rbus_subscriptions.c, subscribeHandlerImpl and the row functions of src/rbus/rbus.c, and the part of src/rbus/rbus_element.c that links elements and subscriptions. Elements and subscriptions are numbered in the order of their allocation; a number that is gone is a dangling pointer. Simplifications: requests are served one at a time (the handler calls made outside the lock are not interleaved with other requests); the element a name leads to is an input of the request (it is the subject of ElemModel); a provider's get handler succeeds when a property starts to be watched; the interval and value-change threads themselves are other models.
* **Tap** - Model of the message listeners of a handle: src/rbus/rbus_message.c. The listeners of a connection are those of ListenModel; a context is freed memory after free. Simplifications: one handle; arguments are not NULL; allocation succeeds; the reader calls a listener in the step in which it finds it (ListenModel separates the two); which names have a private connection is decided by the environment (see PrivModel).
* **Text** - Model of the text conversions of integers, booleans, strings and byte arrays: rbusValue_ToString (src/rbus/rbus_value.c:224-403) with buf = NULL and rbusValue_SetFromString (src/rbus/rbus_value.c:1065-1273), with the C library's strtol, strtoul, strtoll, strtoull and snprintf on an LP64 machine (long is 64 bits). Not modelled: CHAR, BYTE, SINGLE, DOUBLE, DATETIME.
* **Time** - Model of src/rtmessage/rtTime.c. A time is a struct timespec on a 64-bit platform; seconds are unbounded (64-bit time_t does not overflow in practice), nanoseconds are in [0,10^9) for every time produced by clock_gettime.
* **Token** - Model of src/rbus/rbus_tokenchain.c: cutting a subscription name into segments and matching it against an element. An element is the list of its ancestors, itself first, without the root (the only node whose parent is NULL).
* **Tour** - Model of the data model client's get of an object, of a list and of everything below (utils/dataProvider/dmClient.cpp, dmProviderDatabase.cpp). Simplifications: names, queries and the database are those of DmModel; a query whose object is known is answered with any parameters, which can depend on what went before (what DmModel's providers and losses make of it is a case); status messages are left out.
* **Trace** - Model of the trace context that travels with requests: src/core/rbuscore.c 48-63, 424-460, 475-511, 1130-1138, 2354-2436 and src/rbus/rbus.c 1356-1424, 6142-6205, 6461-6520. Simplifications: a program is a tree of requests, each answered before the next action of its caller, so that no two threads run at once (a context belongs to one thread); memory does not run out.
* **Trans** - Model of set and get requests over several parameters: the provider's handlers (src/rbus/rbus.c:1496-1672, 1956-2117) and the caller's side that splits a list of parameters by owning component (3562-3902, 3969-4056, 4128-4386). Simplifications: a value is an integer, `None` is a property without a value (RBUS_NONE); a set handler that reports success stores the value and one that does not leaves it as it was; a get handler that fails leaves the property without a value; what the broker answers to a discover does not change during a call; the reply of the wildcard walk (1853-1953) is an input; allocation succeeds; sessions and timeouts are left out.
* **Typed** - Model of the typed setters and getters of values and of an object's properties (src/rbus/rbus_value.c, rbus_object.c, rbus_property.c). Simplifications: a 64-bit little-endian machine whose char is signed; floating point numbers are their bit patterns, a date its 48 bytes as one number, properties and objects their addresses (who holds them is in OwnModel); memory never runs out.
* **Vector** - Model of src/rtmessage/rtVector.c. Items are pointers, i.e. integers with NULL = 0. Simplification: memory allocation always succeeds (rt_try_calloc / rt_try_realloc), and the destroyer callback is not modelled (it does not touch the vector).
* **Wait** - Model of how long the calls of a program wait for an answer: the timeouts of a handle in src/rbus/rbus_handle.c and their use in src/rbus/rbus.c. A file's content is a list of bytes. The directory RBUS_TMP_DIRECTORY is /tmp; a file that is there can be read; int has 32 bits.
* **Walk** - Model of the queries of a provider for a partial path or a wildcard name: src/rbus/rbus.c:1682-1953 (_convert_reg_name_to_instance_name, _get_recursive_partialpath_handler, get_recursive_wildcard_handler) over the element tree of ElemModel. Simplifications: the get handler of a property is a function of the handler and the name it is called with, giving an error code and a value, and does not rename the property; the get handler of a table gives the properties it adds after the one it is called with, or fails; handlers do not change the tree; table sync handlers are absent, locks are left out. Reading or writing outside a buffer and not returning are both `UB`.
* **Watch** - Model of the value change detector, src/rbus/rbus_valuechange.c. One step is one stretch of code between taking and releasing the detector's mutex (or, while the polling thread holds it, the treatment of one record); every interleaving of such steps is a history. The values a provider's get handler hands out are objects in memory: a read gives a reference, and `store` says what the object holds at the moment of the step. Times are milliseconds. Log output is left out.
* **Wire** - Model of the serializers of src/rbus/rbus.c that put values, property lists, objects, filters and events into an rbusMessage and take them out again. The readers ignore the result of the message getters and go on with whatever the variable held; a failed getter is therefore `UB` here (simplification for the few variables that are initialised, where the reader would go on out of step). A failing assert is `UB` too. Lists longer than an int can count are excluded by the hypotheses of the theorems.

## What is not modelled

* Sockets and their errors (rtSocket.c, connect/accept/poll): a message handed to a socket arrives
  whole and in order, or the connection is gone.
* Encryption (rtCipher.c), logging (rtLog.c, rbuscore_logger), rtMonitor, command line tools and sample programs (`sampleapps`, and `utils` except the data model library), the unit tests.
* The JSON library (cJSON) itself: what is used of it is modelled as its documentation describes it; printing and parsing are not.
* The Windows/Solaris variants and the build options that are off by default (MSG_ROUNDTRIP_TIME, WITH_SPAKE2).
* Weak memory effects: shared variables are read and written atomically and in order.
* Timing other than the order of events and the arithmetic on deadlines.

## Per property: model, proof, status


| Id | Property | Theorems in | Proved by | Status | Remark |
|----|----------|-------------|-----------|--------|--------|
| C01 | Binary data as text | Base64Props.v | The specification speaks of bit strings cut into six-bit groups; bit-level lemmas for each byte and sextet, then induction three bytes (four characters) at a time. | partial | Writing, reading of all written texts, distinctness, limits and memory safety of reading are proved for everything but the empty text. Refuted: the empty text (written for empty data) is read outside its buffer; several texts give the same bytes, because left-over bits and the character after the first '=' are not looked at; the reported size of a text with padding is more than the text. Not covered: the JSON message the text is put in. |
| C02 | Message header decode inverts encode, and malformed headers are rejected without over-reading | HeaderProps.v | big-endian lemmas, append lemmas | proved | For every header built by header_init; decoding never reads outside the received bytes. The refuted theorem shows what happens without header_init. |
| C03 | Stream framing is independent of how the bytes are split | FramingProps.v | invariant relating the consumed prefix to the reader state, induction on the chunks | proved | All message sequences, all chunkings; also chunk independence for arbitrary bytes from any reader state. |
| C04 | Messages with an empty payload are delivered too | FramingProps.v | invariant relating the consumed prefix to the reader state, induction on the chunks | partial | Refuted: every message with an empty payload is lost and the sender is disconnected at its next byte. |
| C05 | Typed message fields read back in order | MsgProps.v | prefix-free decoding, induction on the fields | partial | All field sequences round-trip in order and fields of another kind are rejected; refuted: 32-bit getters truncate wider integers, unterminated strings from a peer are read past their end. |
| C06 | Call metadata does not disturb the payload | MsgProps.v | prefix-free decoding, induction on the fields | proved | For every payload below the stated size and all three strings; the bound is shown to be tight. |
| C07 | Values survive the wire | WireProps.v | structural induction on value, property, object and filter trees | partial | Round trip proved for every sendable value tree; NULL string/bytes contents, empty object values, signalling NaN floats and unchecked lengths are refuted. Legacy text-typed values (codes 0-11) are the subject of C102. |
| C08 | Objects survive the wire | WireProps.v | structural induction on value, property, object and filter trees | proved |  |
| C09 | Filters survive the wire | WireProps.v | structural induction on value, property, object and filter trees | proved |  |
| C10 | Events survive the wire | WireProps.v | structural induction on value, property, object and filter trees | proved |  |
| C11 | Values survive the binary buffer encoding | BufferProps.v | structural induction; the slack condition is exact | partial | Round trip for every sequence of encodable values whose total size is not exactly the 64-byte initial allocation; exact fill and byte arrays over 65535 bytes are refuted. |
| C12 | Filters survive the binary buffer encoding | BufferProps.v | structural induction; the slack condition is exact | partial | Round trip for AND/OR/relation trees not filling the buffer exactly; NOT filters and an AND of two uint32 relations (exactly 64 bytes) are refuted. |
| C13 | Buffer reads never return bytes that were not written | BufferProps.v | structural induction; the slack condition is exact | partial | Every read/write sequence behaves as a byte queue while reads ask for no more than was written and do not hit the exact-fill case; both exceptions are refuted. |
| C14 | Value comparison is a consistent order | CompareProps.v | order lemmas per type, structural induction | partial | Exact order for numbers up to 2^53 and for strings, preorder laws for all non-NaN numbers, copies compare equal for nested values. Refuted: wide integers, NaN, date-times (always 0), objects (not antisymmetric), byte arrays when the first is longer (reads unwritten bytes). |
| C15 | Integer values survive conversion to text and back | TextProps.v | induction on decimal digits | partial | Round trip for all integers/booleans/strings; exact acceptance for signed types; unsigned types accept out-of-range negatives after white space and 8-bit types read octal (refuted). |
| C16 | Filter evaluation is the boolean function the expression denotes | CompareProps.v | order lemmas per type, structural induction | proved | For every expression and value for which the comparisons are defined; for integers up to 2^53 against plain arithmetic relations. |
| C17 | A vector behaves as a list | VectorProps.v | refinement to lists for every operation sequence | proved | Refinement to lists for every operation history; allocation failure not modelled. |
| C18 | A hash map behaves as a map | HashMapProps.v | refinement to finite maps | proved | Refinement to finite maps for every operation history and every hash function; allocation failure not modelled. |
| C19 | A linked list behaves as a list | ListProps.v | refinement to lists over an explicit heap | proved | Refinement to lists through the heap of nodes for every operation history. |
| C20 | Setting an object property overwrites exactly that property | RefProps.v | reference count invariant over an explicit heap, for every operation sequence | partial | Proved on a heap model with reference counts for every history of sets, references taken and given back (order, uniqueness, latest contents, no use of freed memory, no leak). Refuted: setting again a property the object already contains makes the list cyclic; setting the value just read from the object uses freed memory. |
| C21 | Event-name matching implements the naming rule | TokenProps.v | equivalence with a declarative matching relation | partial | Create and match on the byte buffer, for every well-formed name (names, row numbers, aliases, wildcards, with or without a final dot) and every element. Refuted: rows without an alias match any alias (or read an uninitialised variable), one-letter names never match, unclosed brackets are searched beyond the segment, a leading dot makes the release free a wild pointer. |
| C22 | The element registry finds what was registered | ElemProps.v | tree induction; refinement of the tree to a set of paths | partial | Lookup equals the registered map after every orderly history (rows only under tables, no element registered on top of a table); kept until overwritten. Refuted without orderliness: registering a table after its content drops the content. |
| C23 | Adding and deleting table rows touches only that row | ElemProps.v | tree induction; refinement of the tree to a set of paths | partial | Row registration is exact and its removal restores the state, removal is exact, names stay unique, alias and number agree, for dotted table names and tables without a get handler. Refuted otherwise: missing trailing dot adds the row twice, any element can be removed as a row, adding a row below a non-table is undefined. |
| C24 | The broker routes a topic to the clients registered for it | RouteProps.v, RouterProps.v | invariants of the topic tree over all operation sequences; invariants over all histories, on top of the Route theorems | partial | Exact lookups equal the registrations that serve the name, for all histories in which the accepted names are used consistently (no placeholder beside a literal), removals are literal and names fit the buffers; trailing-dot lookups for histories without topic removal. Refuted in general: a lookup with a placeholder over literal children is misrouted; a name under which a table existed stays unfindable after the table's owner left; a free name is refused as duplicate while something below it is registered. |
| C25 | A topic name never overflows the broker's parse buffers | RouteProps.v | invariants of the topic tree over all operation sequences | partial | Exact condition for parsing to stay inside the two buffers (at most 32 parts, at most 512 bytes with terminators), and no operation on names that satisfy it leaves them. Refuted: the registration check admits 512 bytes or 33 parts, and lookups, removals and partial-path resolution are not checked at all. |
| C26 | After a client disconnects nothing is routed to it | RouteProps.v, RouterProps.v | invariants of the topic tree over all operation sequences; invariants over all histories, on top of the Route theorems | partial | After a route is removed no exact lookup gives it, for every history that uses routes the way the broker does; the other routes are found as before when names are used consistently (also for trailing-dot lookups without topic removals). Refuted for the exempt advisory topic registered twice by one route. |
| C27 | A request that cannot be delivered is answered | RouterProps.v | invariants over all histories, on top of the Route theorems | partial | Proved for every consistent history (names requested by clients do not mix a placeholder with other names at the same place, names taken back are literal, the advisory name is not an alias) and topics that fit the broker's buffers: what dispatch delivers is exactly what the list of registrations says, and a request nobody serves produces one undeliverable response with its sequence number. Sockets always accept in the model. Refuted: a subscribe request whose reply topic is one of the broker's own names makes it read through NULL. |
| C28 | A response completes exactly the request it answers | PendProps.v | invariant over all interleavings | partial | Proved for every interleaving of the callers, the reader and their timeouts: a call is given only a response with its own sequence number, responses are matched at most once, each is given to one call, freed or discarded, and a response to nobody is discarded. Sequence numbers must not wrap while calls are pending. Nested requests made from the reader thread, reconnecting and closing are not modelled. Refuted: a call that times out leaves the list without the lock, so the reader can write to its dead frame, and a response that arrives at the deadline can leak. |
| C29 | Incoming messages are handed to callbacks in order and none is duplicated | ListenProps.v | invariant over all interleavings | proved | For every interleaving of application calls with the reader and callback threads: callbacks get accepted messages in arrival order, each at most once; a message is refused only when 26 are waiting; a handled message reaches a callback unless no listener has its id. Reconnecting and closing are not modelled. |
| C30 | A listener receives exactly the messages for its subscription id | ListenProps.v | invariant over all interleavings | partial | The listener table is the finite map of the specification as long as no id and no expression is added while it is active: results, messages to the broker, active listeners and dispatch. The capacity is respected without condition. Refuted: an active id can be added again (by the caller, or by the counter when the caller used 10000), and then the second listener is never called; a callback can start after its removal returned. |
| C31 | The subscription registry holds each subscription once | SubsProps.v | invariants over all operation sequences | partial | Every reachable registry (requests, rows added and deleted, providers restarting, disconnections), for filters whose constants are strings or numbers a double can hold: keys are distinct, a subscribe that succeeds adds exactly its key, one with a held key is refused, an unsubscribe that succeeds removes exactly its key, failures change nothing, and requests the element takes and the handler accepts succeed. Requests are served one at a time; raw subscriptions to elements that are not events are excepted (C57). Refuted with NaN in a filter: accepted again and again, cannot be ended. |
| C32 | A disconnected consumer's subscriptions are all removed | SubsProps.v | invariants over all operation sequences | partial | Other consumers' subscriptions always stay; the consumer's own are all removed when they have no filter, interval, duration or raw flag, their names still lead to elements and the handlers accept. Refuted: subscriptions with a filter or interval stay, and an unfiltered one behind them is freed and then used. A provider without direct connections is never told that a consumer went (C103). |
| C33 | Deleting a row ends only that row's subscriptions | SubsProps.v | invariants over all operation sequences | partial | Exact outcome in every reachable registry without stale elements: the registry is cut before the first subscription that matches an element of the deleted row; when none does nothing changes. Refuted: wildcard subscriptions end with the first row that goes, so does everything subscribed later, and a subscription to the rows of a nested table survives with a dangling element that the next added row uses. |
| C34 | Subscriptions survive a provider restart | CacheProps.v | round trip; induction on the file | partial | Proved: for every list of subscriptions within the name limits and every set of listeners still present, loading what was saved gives exactly the saved subscriptions (minus those whose listener has gone) and re-saves what was loaded; for every truncation point, a load that does not read uninitialised memory yields exactly the subscriptions of an initial segment; in every history without re-subscription the file holds exactly the registry. Refuted: a file cut at a subscription boundary is partially trusted; other cuts read uninitialised memory; names of 255 bytes and negation filters are saved but abort the load; a refused re-subscription leaves a stale file; restored subscriptions are renumbered and numbers collide. Not covered: arbitrary corruption of bytes other than truncation. |
| C35 | A published event reaches each subscriber of the element exactly once | SubsProps.v | invariants over all operation sequences | partial | Exact list of messages of a publish in every reachable registry without stale elements; whether a subscription is one of the element's is decided by its name (C21). Success means every send succeeded. Raw publishing likewise. Refuted: errors of raw direct sends are overwritten. |
| C36 | A filtered value-change subscription fires exactly on threshold crossings | SubsProps.v | invariants over all operation sequences | partial | Every set of subscribers: exactly those whose filter changes its truth value are sent the event, with the new truth value; over any run of integer values what a subscriber is told is the sequence of turns, alternates and ends with the current truth. Filters must be comparable with the values (C16). Element references must not be stale (C33). |
| C37 | Subscribers do not see each other's filters | SubsProps.v | invariants over all operation sequences | partial | Everything except the property "filter" is that of the event, and "filter" is right for subscribers that have one. Refuted: unfiltered subscribers behind a filtered one are sent its truth value. |
| C38 | Value-change detection reports every observed change once | WatchProps.v | invariants over all interleavings of polls and calls | partial | Proved over every interleaving of additions, removals, closings and polls: for every node the events are exactly one per read whose number or string differs from the current one, carrying exactly these two values, none otherwise and none while it is not watched; the polling thread runs exactly while something is watched. Conditions: values are strings or numbers a double can hold, providers do not modify a value object they handed out, additions of one node do not overlap its removal. Each condition is necessary: refuted for shared value objects, date-times, wide integers, NaN (an event at every poll) and byte strings (out of bounds read); closing one handle while another adds uses freed memory. |
| C39 | An interval subscription with a duration publishes the promised number of events | IntervalProps.v | induction on the number of periods | partial | Proved for every interval of 1 to 2147483 seconds, every duration and every pattern of failing reads: exactly floor(d/i) events at the times of the successful reads, then one completion event at the next successful read, then the thread ends; with duration 0 it never completes; a stopped thread publishes nothing after the turn that sees the flag. Refuted: larger intervals overflow; the stop signal itself makes the thread publish one extra, early event. |
| C40 | Unsubscribing from an interval subscription cannot block forever | LockProps.v | deadlock freedom from an order of the locks, for any number of threads; concrete schedules for the refutations | partial | Proved for any number of threads serving any mix of requests, publishing threads and polling threads, under every schedule: no reachable state is stuck and every schedule finishes all threads, provided no duration completes, no poll finds a change and no set handler publishes. Refuted: unsubscribing (or subscribing with an interval) while a duration completes blocks both threads for ever. |
| C41 | An asynchronous subscribe ends with exactly one callback | RetryProps.v | induction on attempts | partial | Proved for every sequence of additions, removals, closes, answers and clock steps whose outcome is defined: at most one callback, with the result of the definitive last answer, paced retries, progress of every round, no oversleeping. Refuted: a failure without provider error reads an unset variable; withdrawing while the request is under way is a use after free; closing a handle withdraws only one pending subscription; the timeout argument is ignored (the handle's timeout is used). |
| C42 | A synchronous subscribe stops retrying at its timeout | RetryProps.v | induction on attempts | partial | Proved for every timeout of whole seconds up to 2147483 and every sequence of answers (plan of waits, total, termination); for the handle's timeout in whole seconds. Refuted: the fraction of a second of a handle timeout is not slept; a timeout from 2147484 s on overflows. The time the requests themselves take is not modelled. |
| C43 | Bulk subscribe is all-or-nothing | ConsumeProps.v | invariants over all operation sequences | partial | Proved after every fair history: success makes the whole list active and accepted by its providers; failure leaves what is active unchanged, and when no reply is lost and the undoing requests are accepted also what the providers hold; asynchronous lists become pending as a whole or not at all. Refuted: a list naming a subscription withdrawn while the provider was away; raw data lists (never undone); a lost undoing request; a provider that answers ALREADY_EXIST (unset fields are read); asynchronous undo with a withdrawn entry. |
| C44 | Registering data elements is all-or-nothing | RegProps.v | induction on the elements, on top of Router and Elem | partial | Proved on the broker model and the component's tree together: after a failed call whose requests were answered or never arrived, no message goes to anybody it did not go to before, and with nothing registered below the listed names the broker behaves exactly as before; success adds exactly the listed names; taken names make the call fail. Refuted: the elements stay visible in the component (C44_visible_refuted, C44_component gives the exact tree), a late answer leaves the failing element registered, and the rollback withdraws other components' elements below a listed name. |
| C45 | A failed multi-set on one component leaves its parameters unchanged | TransProps.v | induction on the parameters and on the batches | partial | Proved for every request: what an accepted request does, and that a refused one touches only what it names. A refused request leaves everything as it was if the parameters are distinct, exist, are writable, can be read, reading works and the old values are accepted. Refuted when a parameter is missing or not writable, named twice, write-only, or when reading its value fails. |
| C46 | A multi-set across components reports failure and undoes earlier components | TransProps.v | induction on the parameters and on the batches | partial | Proved: one request per component with its parameters in order, for every environment; success means every component accepted when every request is answered; exact result of a failure with well-behaved handlers: nothing changed with up to two components. Refuted: a third component (only the last component's values are remembered), a lost request forgotten or not undone, failing name not reported after the first component. |
| C47 | A multi-get asks each owner exactly once for each parameter and reports failures | TransProps.v | induction on the parameters and on the batches | partial | Proved: the requests, for every environment; the exact result without wildcards when every request is answered; completeness when all can be read or one component owns all. Refuted: a component's error is overwritten by a later success; a wildcard hides the other parameters of its component. |
| C48 | At most one session is open | SessionProps.v | invariant over histories | partial | Proved for every history; refuted: since every session has the same id, a late close by the former holder ends the session of another component. |
| C49 | Component ids are unique and an id resolves to its own handle or nothing | HandleProps.v | invariants over histories | partial | Ids of open components are distinct in every history and lookups of known ids are right; refuted: an unknown id resolves to the most recently opened component. |
| C50 | Shared reference-counted objects are destroyed exactly once | RetainProps.v | invariant over all interleavings | partial | Threads and schedules are arbitrary; at most one destruction, only after the last release, and exactly one when all have returned - in runs that touch no freed memory, which holds when releases do not overlap. Refuted: two overlapping releases read the freed counter. |
| C51 | A pool task is executed exactly once and the thread limit holds | PoolProps.v | invariant over all interleavings | partial | Proved for every schedule: order and at-most-once execution, accounting of stopped tasks. Every task is executed within a bounded number of worker steps if no submission falls in the time-out window of a worker, thread creation succeeds and the pool is not stopped; the limit holds if no submission falls between the creation and the start of a worker. Refuted otherwise: unlimited threads, stranded task, ignored pthread_create failure, submission after stop, stop that does not wait. |
| C52 | A semaphore wait returns success only by consuming a post | SemProps.v | invariant over all interleavings | partial | Every interleaving, with timeouts and spurious wakeups; posts are never lost or taken twice; for a single wait success implies a post. Refuted in general: a spurious or overtaken wakeup reports success without a post. |
| C53 | Time arithmetic is consistent | TimeProps.v | lia | partial | Exact for every duration below 2^31 ms; refuted from 2^31 ms on, where the int result wraps. |
| C54 | Closing the connection always terminates | PrivProps.v | invariants over histories | partial | Both ends of direct connections; every history leaves one entry per parameter. Teardown on exit terminates exactly when all connections lead to one provider; with two providers it never ends (refuted). |
| C55 | A core-event listener is notified once per transition | CoreProps.v | invariants over histories | partial | Provider side of rbuscore (objects, methods, events, listeners, override handler) as a transition system; every step of every history agrees with a specification in terms of who listens; 'added' minus 'removed' equals reachability by publish while the event stays registered. Refuted: unregistering an event tells nobody; with 31 methods registration reports success although unsubscribe requests are not handled. |
| C56 | The provider's subscribe handler sees a balanced history | SubsProps.v | invariants over all operation sequences | partial | While requests the handler accepts succeed, the history it sees replays to the registry. Refuted: the handler is asked before the registry is, so it accepts a duplicate that is then refused and the end of a subscription that never was; subscriptions ended by row deletion are not reported to it. |
| C57 | A failed subscribe leaves no subscription behind | SubsProps.v | invariants over all operation sequences | partial | Registry, links, watched properties, timers and cache file unchanged by every failed request, except raw subscriptions to elements that are not events. Refuted there: refused but kept, and then impossible to end. Subscribing to a property without get handler aborts the provider. |
| C58 | Removing a broker topic affects only the requesting client | RouteProps.v, RouterProps.v | invariants of the topic tree over all operation sequences; invariants over all histories, on top of the Route theorems | partial | Withdrawing a name removes it and what lies below and changes no other exact lookup. Refuted: the names below may belong to other routes, and topics above keep a pointer to a freed route. |
| C59 | No client bytes make the broker touch memory outside its read buffer | FramingProps.v | invariant relating the consumed prefix to the reader state, induction on the chunks | partial | Holds for the 64 KB buffer and streams that never announce a header below 22 bytes or a payload near 2 GB; refuted otherwise (three concrete attacks). |
| C60 | After a direct connection to a parameter is closed it can be opened again | PrivProps.v | invariants over histories | partial | Proved when the provider confirms the close; refuted otherwise: an unconfirmed close leaves the entry, and the parameter cannot be opened again. |
| C61 | Opening and closing components never touches freed memory | HandleProps.v | invariants over histories | partial | Proved for histories in which no reopen of an already open component fails; refuted otherwise: a second open of the same component while the broker is down frees the shared handle twice. |
| C62 | A new row leaves existing subscriptions as they are | SubsProps.v | invariants over all operation sequences | partial | Proved for rows whose name begins no subscription's event name. Refuted: adding row 1 subscribes the subscribers of row 10 again, under an id they do not know, or loses them when the handler refuses. |
| C63 | Value-change events name the component that made the change | WatchProps.v | invariants over all interleavings of polls and calls | partial | Proved for every history: the 'by' field is the component that last set the node through the bus, or the provider if none ever did. Refuted: after one set through the bus every later provider-side change is still attributed to that component. |
| C64 | Subscribing to a property cannot block against change detection | LockProps.v | deadlock freedom from an order of the locks, for any number of threads; concrete schedules for the refutations | partial | Same general progress theorem as C40. Refuted: a poll that finds a changed value and a subscribe or unsubscribe for any property of the same handle take the detector mutex and the subscription mutex in opposite orders and block for ever; so do a set handler that publishes and a subscription to the same property. |
| C65 | An event reaches exactly the handler of the subscription in force | ConsumeProps.v | invariants over all operation sequences | partial | Proved for every history in which filters are ordinary, no provider answers ALREADY_EXIST and no refused request is for a subscription withdrawn while its provider was away: the view, exact delivery, refusal without request, acceptance with one request. Refuted: the handler of a withdrawn subscription runs while the provider cannot be reached; pending requests that differ in interval only exclude each other. |
| C66 | Destroying a thread pool frees it once, after its last thread | PoolProps.v | invariant over all interleavings | partial | Proved for every schedule: a pool that was shut down is freed once nothing can go on (no leak). Refuted: double free by the destroying thread and the last worker; a worker that has not run yet uses the freed pool. |
| C67 | Providers are told who asks | TransProps.v | induction on the parameters and on the batches | partial | Proved for set calls (also restoring), for rbus_get and for one wildcard query. Refuted for rbus_getExt with several parameters: every provider is told its own name. |
| C68 | A wildcard query returns everything or fails | TransProps.v | induction on the parameters and on the batches | partial | Proved when the first component has something for the query. Refuted: a failing component after the first is not reported; when the first component has nothing the result was already released (and further parts are added to it); when the first component fails the result depends on the caller's uninitialised variable. |
| C69 | A partial path query returns exactly the readable properties below the path | WalkProps.v | tree induction | partial | Proved for every data model and every query without a star: exact answers, order, names (also below tables with their own get handler), each once, same value when asked singly. Missing: names of 256 bytes and more. Refuted: a star after the last dot below a table with its own get handler makes the walk loop forever; properties below a property are left out. |
| C70 | A wildcard query returns what its rows return | WalkProps.v | tree induction | partial | Proved for every data model, any number of stars and every row order. Refuted for a table with its own get handler (nothing is returned though rows can be read) and compared with partial paths (one unreadable property makes the whole query fail). |
| C71 | Component lookup names the provider of every element | DiscProps.v | induction on the names, on top of Route | partial | C71_exact gives the answer for every list of plain names; C71_partial: it is right if all elements are served by equally many components. Missing: an element nobody serves empties the whole answer with success (C71_missing_refuted), and a lost request is reported as success (C71_lost_refuted). |
| C72 | Element lookup lists exactly what a component has registered | DiscProps.v | induction on the names, on top of Route | partial | Proved for every history over consistent names and every component name. The component's own name is listed too (C72_own_name_refuted), and of two components of one name only the first is looked at (C72_namesake_refuted). |
| C73 | The list of components is that of the open ones | DiscProps.v | induction on the names, on top of Route | partial | The list is proved to be exactly the first names of the live subscriptions that do not begin with an underscore; it therefore also has the reply topics of all connected processes (C73_inbox_refuted). |
| C74 | Wildcard discovery finds every component below a path, once | DiscProps.v | induction on the names, on top of Route | partial | Proved for histories in which names are withdrawn only with their whole subscription. A single withdrawn element leaves the component listed (C74_withdrawn_refuted); queries ending in an element name find nobody (C74_element_refuted). |
| C75 | A provider polls exactly the properties its subscribers wait for | PollProps.v | invariants over all operation sequences of the Subs model | partial | C75_watched covers all operations; exactness and timers hold only while no row is removed and names keep leading to the same element; three refutations show what row removal and empty tables break |
| C76 | A client reads exactly the messages sent to it, however the stream is cut up | LinkProps.v | prefix and completeness invariants over all recv results by induction on them; composition with the framing and dispatch theorems | partial | Proved for all message sequences, chunkings, interruptions and cut-off points (C76_reads, C76_cut_off). Refuted: another recv error within a message desynchronises the stream; a header announcing 2^32-1 bytes makes the client write outside its memory. |
| C77 | A send puts one copy of the message on the stream or none | LinkProps.v | prefix and completeness invariants over all recv results by induction on them; composition with the framing and dispatch theorems | partial | Proved when sendmsg takes a message whole or not at all and topics have at most 255 bytes. Refuted: after a short write the whole message is sent again behind the part; longer topics are cut off silently. |
| C78 | From program to program: every client gets its messages, in order and unchanged | LinkProps.v | prefix and completeness invariants over all recv results by induction on them; composition with the framing and dispatch theorems | partial | Proved for one sending program, messages with a payload (C04) that are not for the broker itself, consistent registration histories and plain topics (C27), whole writes (C77). |
| C79 | The rows shown for a table are exactly its rows, in order | NamesProps.v | a frame lemma for every tree operation gives the invariant that a table shows exactly its rows (induction over histories); the element walk is shown equal to the sorted list of positions by induction over trees; message round trips close the gap to the caller | partial | Proved for every history of calls with numbers below 2^31 on plain names, from the registration of the table on, without table get handlers. Refuted: a table name without its last dot gives wrong names; a property registered inside a table is shown as row 0. |
| C80 | Element information lists every element of the asked depth once | NamesProps.v | a frame lemma for every tree operation gives the invariant that a table shows exactly its rows (induction over histories); the element walk is shown equal to the sorted list of positions by induction over trees; message round trips close the gap to the caller | partial | Proved for all trees, depths and lists of components whose names fit (255 bytes), for paths that lead through no table with its own get handler. Refuted: the code is that of the last component only; a table with its own get handler is answered with success and nothing, and rows below it are named {i}. |
| C81 | Method calls deliver parameters and results | MethodProps.v | The handler, the caller and their messages are functions of the registry, the handlers of the program and the parameters; the round trip of objects (C08) and the registry theorem (C22) give the call, and the error parameters are specified as lookups by name. | partial | Proved from the caller's message to the handler and back for orderly registration histories and plain names; errors, missing methods, later answers, timeouts and the asynchronous form are covered. Not covered: aliases and wildcards in method names, tables with get handlers, codes outside the enumeration. Refuted: a later successful answer without out parameters is read beyond its end by the caller; the timeout of an asynchronous call overflows above 2147483 seconds; an unnamed out property of a failing handler is compared with strcmp; the older library's code for success (100) is returned to the caller of a method as it is. |
| C82 | Reading a parameter gives what its handler returned | ParamProps.v | The get and set handlers, their callers and the messages between them are functions of the data model and the handlers of the program; the round trips of values (C07) and the shape of the data model (C22, C23) reduce a call to one step of the handler loops, and C84 is an induction over the calls against a map from names to values. | partial | Proved from the caller's request to the handler and back, for plain names, tables without get handlers and handler codes in the enumeration. Not covered: aliases in names, handlers of tables, several destinations of one query (C68). Refuted: the empty name is read at index -1. |
| C83 | Setting a parameter runs its set handler once with what was given | ParamProps.v | The get and set handlers, their callers and the messages between them are functions of the data model and the handlers of the program; the round trips of values (C07) and the shape of the data model (C22, C23) reduce a call to one step of the handler loops, and C84 is an induction over the calls against a map from names to values. | partial | Proved from the caller's request to the handler and back, for plain names and handler codes in the enumeration. Not covered: aliases in names; requests with rollback are C45 and C46. Refuted: the empty name is read at index -1. |
| C84 | Parameters behave as typed registers | ParamProps.v | The get and set handlers, their callers and the messages between them are functions of the data model and the handlers of the program; the round trips of values (C07) and the shape of the data model (C22, C23) reduce a call to one step of the handler loops, and C84 is an induction over the calls against a map from names to values. | partial | Proved by induction over any sequence of reads and sets at one provider. Not covered: values with unnamed or missing parts (they arrive as C07 and C08 say), aliases in names, several providers. |
| C85 | Message listeners get their messages until they are removed | TapProps.v | The contexts are a heap in which freed memory is undefined behaviour, the listeners of each connection are the slots of ListenModel; an invariant ties every live slot to its context and the refinement to a list of listeners is by induction over the history. | partial | Proved by refinement to a list of listeners, for histories in which no two listeners of the handle's connection share an expression and no two of one connection an id, a listener is removed with the expression and id it was added with, a connection has at most 128 listeners, queries are about expressions not used on private connections, and removing all listeners comes last. Each of these conditions is shown necessary by a refutation: a context is freed by expression but its slot by id, private contexts are looked for under another name and never freed, a context stays after a failed add, and removing all listeners leaves freed contexts in the list. |
| C86 | Unregistering elements withdraws exactly the listed elements | UnregProps.v | The loop of removals on the broker model of RouterModel, through the refinement of the broker to the list of registered names (RegProofs); the component side is the element tree that the call leaves alone. | partial | Proved on the broker model for every consistent history of registrations (as in C27): the exact receivers of every message after the call, nobody for what only listed names served, no change for other messages when nothing is registered below the listed names. Refuted: the component keeps the elements in its own tree, so a query for the path above still calls their handlers; elements of other components below a listed name are withdrawn too; a component can withdraw what another has registered. |
| C87 | Adding or removing a row over the bus runs the table's handler once and changes exactly that row | RowProps.v | The request and response messages of the two calls over the element tree of ElemModel; each call of a session is mapped to one step of the history of C79, whose induction then gives the rows shown. | partial | Proved from the caller's request to the handler and back, for plain names (no aliases or wildcards), tables without get handlers, handler codes below 100 and row numbers not in use. Refuted: the empty table name is read at index -1; removing the row {i} removes the template and the next add aborts the provider; an add handler returning 100 is reported as a success without a row. |
| C88 | The rows shown are those consumers were told of | RowProps.v | The request and response messages of the two calls over the element tree of ElemModel; each call of a session is mapped to one step of the history of C79, whose induction then gives the rows shown. | partial | Proved by induction over any sequence of requests that are answered or do not arrive, through the history theorem of C79. Refuted for answers that are lost on the way back and for handlers that answer with a number in use. |
| C89 | Many programs sending at once while names come and go | CrowdProps.v | One round of the main loop is either a read of some bytes from one client or a served registration; the run is related to one replay of facts over the registration set, by induction over the rounds with a separate reader run for every client. | partial | Proved by induction over the broker's main loop for any number of senders and any interleaving with consistent registrations. Not covered: registration requests travel outside the byte streams (their JSON parsing is not modelled), a program that leaves while its own bytes are unread, and sends that stop in the middle of a message. |
| C90 | Published events reach exactly the subscribers | NotifyProps.v | The requests, answers and event messages are built and read field by field on the message model; an invariant over all histories relates the provider's registry (SubsModel), every component's list (ConsumeModel) and the list of subscriptions that the results of the calls imply; publishing is then an induction over the subscribers. | partial | Proved for histories with one provider whose elements stay, filters with plain constants, handlers that accept unsubscribing, and events other than VALUE_CHANGED (filters: C36, C37) and DURATION_COMPLETE. Refuted: publishing reports success when every message is lost; a process that ends leaves subscriptions with an interval at the provider, so publishing succeeds with nobody subscribed; after a refused unsubscribe the subscriber is told it succeeded, and subscribing again leads to a comparison with fields never set. Not covered: raw data, asynchronous subscribing, several providers. |
| C91 | The initial value of a subscription | NotifyProps.v | The requests, answers and event messages are built and read field by field on the message model; an invariant over all histories relates the provider's registry (SubsModel), every component's list (ConsumeModel) and the list of subscriptions that the results of the calls imply; publishing is then an induction over the subscribers. | partial | Proved for every reachable state when the get handler succeeds or is missing. Refuted: when it returns an error nothing is written in place of the flag; the subscriber takes the subscription number for it and reads an event past the end of the answer. Not covered: initial values of tables and of names with wildcards. |
| C92 | Requests over direct connections | DirectProps.v | An invariant over all histories of consumers and provider threads relates the list items (a heap with freed cells), the threads and connections: every open parameter has an item with the right handler and connection, at most one active thread per address, and an item exists while a thread serves; requests and events then follow from the message and header round trips. | partial | Proved for all histories in which names fit their arrays and a consumer opens again only after the provider's thread for its former connection has ended, when the handlers answer at once. Refuted: a consumer that reopens earlier loses its new entry with the old thread and is refused although connected; a handler that answers later (or not at all) makes the provider use an uninitialised response. Parameters closed by everybody are refused only if no consumer failed while connecting. Not covered: several providers, tcp addresses, partial reads (C80, C81 treat the byte streams). |
| C93 | Events for directly connected consumers | DirectProps.v | An invariant over all histories of consumers and provider threads relates the list items (a heap with freed cells), the threads and connections: every open parameter has an item with the right handler and connection, at most one active thread per address, and an item exists while a thread serves; requests and events then follow from the message and header round trips. | partial | Proved for all interleavings in which this consumer neither closes the parameter nor ends between the lookup and the sending. Refuted: the item found is used without the lock, so closing in between reads freed memory; while the consumer is still connecting an event is written to descriptor 0; when connecting fails the provider keeps the entry and all later events for that consumer are lost; consumers whose addresses do not fit share one and get each other's events. Not covered: what the consumer does with the event. |
| C94 | Lifetime of values, properties, objects and filters | OwnProps.v | A heap of counted cells; invariant by induction over programs: every counter equals the references held plus the owners pointing to the cell (plus the lost ones), the ownership graph is acyclic and well typed. The release recursion is verified against this count with a multiset of pending decrements; absence of leaks follows by walking predecessors in a finite acyclic graph. | partial | Proved for all programs that use live handles of the right type, close no circle and do not put back what they are taking out; exactness also needs that no string or bytes are stored over a property or object. Refuted without these: SetString/SetBytes over a property or object lose it; storing back what is stored there (all setters of a counted pointer, rbusObject_SetPropertyValue, rbusObject_SetProperty) uses freed memory when the container has the only reference; setting a property that is already in the object ties its list into a circle; circles are not refused and are never freed; rbusValue_Copy of a property or object fails an assertion; a child's parent pointer dangles. Not covered: several threads (C50), the stack needed by recursive release, out of memory. |
| C95 | What the setters change | OwnProps.v | A heap of counted cells; invariant by induction over programs: every counter equals the references held plus the owners pointing to the cell (plus the lost ones), the ownership graph is acyclic and well typed. The release recursion is verified against this count with a multiset of pending decrements; absence of leaks follows by walking predecessors in a finite acyclic graph. | partial | Proved for the calls of C94 in all states careful programs reach. Refuted: properties without a name make SetProperty and the by-name setters read a null pointer; setting a property that carries a list can give the object two properties of one name. Not covered: the getters and iterators (C05, C20 treat some). |
| C96 | Fields of a text message | JsonProps.v | Look-up commutes with every call (one equation per call), then induction over the calls before and after the first one that puts a field of the name. | partial | Proved: the first value given to a name (letter case ignored) is read back in its type, lists in order, missing names reported, building is safe when the topic is set once. Refuted: setting again does not change what is read; names differing in case are one field; a second send topic frees memory twice; another type is read as 0, false or null; string-into-buffer and binary reads of a number follow a null pointer; a string as long as the buffer loses its last character; a negative index gives an empty message. Not covered: the JSON library itself (its documented behaviour is assumed), printing and parsing, NaN and infinity. |
| C97 | Renewing a broken connection | ReconProps.v | Transition system of any number of threads; an ownership invariant (flag up iff exactly one thread renews) proved over all steps, with loop invariants of the telling thread that hold under steps of all others; the stuck states are closed under every step. | partial | Proved for every interleaving as long as sockets can be had: one thread at a time, one renewal per failure, every listener told again on the new socket (exactly and in order if they do not change, as a fresh connection would), success within the tries, giving up after them. Refuted: aliases (data elements) are not told again; after one failed socket() the listeners are not told again; after a failed fcntl() everybody waits for good; if the broker dies during the telling the thread waits for itself for good. Not covered: the key exchange, and that the table is read without its lock while it is told again. |
| C98 | Texts naming sockets | AddrProps.v | Computation of the reader on the shape of the text, with the decimal lemmas of TextProofs; the last-colon split is characterised by induction. | partial | Proved for well written texts (paths of at most 107 bytes, four numbers, ports of 16 bits, interface names of at most 15 bytes): read, written back, distinct, usable; other forms refused; safe for hosts under 128 bytes. Refuted: longer paths are cut, so different texts name one socket; longer hosts overrun a buffer; a host beginning with a digit that is no address is accepted and then ends the process; ports are taken modulo 65536; IPv6 addresses beginning with a letter are refused. Interfaces and the library's IPv6 reader are parameters. |
| C99 | How long calls wait | WaitProps.v | Induction over the history of configuration calls, newest first; the decimal lemmas of TextProofs extended to numbers followed by something else. | partial | Proved: the configured value, the default after 0, the environment, the file and the given timeout decide as stated, for every history of configuration calls; kinds are independent for program names of at most 80 bytes. Refuted: 0 does not bring the environment's number back, a file of 2147484 seconds or more overflows, a file starting with 25 digits is read beyond the buffer, program names of 116 bytes share one file for all kinds, and a subscribe timeout of 2^31 ms or more becomes negative. |
| C100 | Raw data subscriptions and direct connections | RawProps.v | Refinement: an invariant relates listeners, entries and the list of subscriptions, on top of the refinement of the message listeners (C85); induction over the history. | partial | Proved for one provider and at most 128 subscriptions, when a withdrawn subscription the provider did not hear of is renewed before its event is connected directly and a direct connection is closed only after its subscription was withdrawn. Refuted: two providers give out the same numbers, so an event runs the other's handler and withdrawing one silences the other; closing a direct connection under a subscription leaves a listener with a freed handle; a withdrawn handler runs again after a direct connection; a refused renewal blocks the event for good; 'already subscribed' from the provider reads an unset field; a refused withdrawal is reported as success. |
| C101 | The trace context travels with requests | TraceProps.v | Induction over the tree of requests with the set of busy threads: idle threads have no context, busy ones keep theirs; the metadata theorem of C06 carries the texts. | partial | Proved for all trees of requests and events in which no busy thread handles another request, texts have at most 510 bytes, handlers that answer later and event handlers leave no context, and asynchronous invocations are made without one. Refuted: a handler that answers later and an event handler leave their context to later event handlers; an asynchronous invocation loses its caller's context; texts of 511 bytes or more are dropped without an error; reading into an array of length 0 writes beyond it. |
| C102 | Values in the legacy text format are read as what they mean | LegacyProps.v | Exactness of each conversion against a relation between texts and values (with C15), then the message theorems of C06 and C07 by induction over the list of values; the model agrees with ParamModel wherever that one is defined. | partial | Proved for texts, integers, booleans, and floating point numbers and times as the C library reads them. Refuted: a read whose text means nothing is a success with an untyped value; a set of several parameters is refused only if the last text means nothing; base 64 is not decoded; any text is read as a byte; a negative number after a space is read as an unsigned one. Legacy values inside lists and objects are not modelled. |
| C103 | Whoever relies on another program is told when it goes | AdviceProps.v | Invariant over histories on top of the broker relation of C27: the owners of the notice topic are exactly the connections of the programs that hold direct handles; the notices then give the list of the specification by induction. The provider refutation is an invariant over all histories, without conditions on names. | partial | Proved for programs that hold a direct handle, when handles are closed before the program's own and the listener finds a free slot. Refuted: a provider that holds none is never told, whatever it has registered (the call is compiled out), so C32 and the end of a consumer in C90 apply to it only if it does; closing the program's handle first leaves stale marks; a listener that found no slot is not tried again. One handle per program; losses on the way are not modelled. |
| C104 | No call leaves a mutex locked | GuardProps.v | Each function is its control flow with the mutexes it takes and gives back and the shared data it touches, under a big-step relation that also shows every unfinished prefix. A function that computes all outcomes and all faults is proved to give all of them (soundness, by induction on the statement with a closed set of states for loops) and only those (completeness, used for the refutations), for every set of mutexes held by the caller; handlers that make any calls are a loop over the choice of all calls. The theorems follow by computing it. | partial | Proved for all calls and thread functions listed, on all paths, with handlers that make any calls any number of times. Refuted: closing a connection that is not open returns with the core's mutex locked; a subscribe handler that opens a handle when a client has gone away waits for its own thread. Conditions are choices, so more paths are covered than the code has; waiting for other threads is C40 and C64; one handle and one element; mutexes of the message layer and null entries in rbus's own lists are left out. |
| C105 | Shared tables are only touched under their mutex | GuardProps.v | Each function is its control flow with the mutexes it takes and gives back and the shared data it touches, under a big-step relation that also shows every unfinished prefix. A function that computes all outcomes and all faults is proved to give all of them (soundness, by induction on the statement with a closed set of states for loops) and only those (completeness, used for the refutations), for every set of mutexes held by the caller; handlers that make any calls are a loop over the choice of all calls. The theorems follow by computing it. | partial | Proved for the 44 functions listed, at every moment of every path, and for the handlers of methods, core events, raw data and asynchronous subscriptions, which run with no mutex. Refuted for 34 others, for each of which the exact set of faults is proved: clean-up of the core under its own mutex, direct connections used after the mutex is given back, subscriptions walked after a nested call has given it back, lists searched without it, the list of handles read without it. |
| C106 | A data model name leads to the object it names | DmProps.v | Equivalence of the walk over the parts of a name with a declarative relation between steps, objects and numbers, by induction in both directions; inversion of splitting and joining; the trimming loop by induction on the value; gets and sets as maps over the parameters by induction. | partial | Proved as an equivalence for every database and name that does not begin with a dot, and for every value that does not begin with a brace. Refuted: a set of a name without a dot never returns; a value in braces, or with a part up to a dot in braces, is taken for a list of settings. Reading the database from its files is not modelled. |
| C107 | Data model gets and sets call the provider for what was written, and report it | DmProps.v | Equivalence of the walk over the parts of a name with a declarative relation between steps, objects and numbers, by induction in both directions; inversion of splitting and joining; the trimming loop by induction on the value; gets and sets as maps over the parameters by induction. | partial | Proved for every instance name, property and provider with getters and setters, and for every list of settings without commas and equals signs in them; no setter is ever called for a property that cannot be written. Refuted: a request that is lost or answered late is reported as a success without values; a set to the empty text does nothing and succeeds; a setting with a comma or an equals sign in its value is left out silently; the error code of a provider's own handler is dropped; numbers of 8 bits are reported as characters; results for items of a list do not name the item. Floating point values and the JSON of the messages are not modelled. |
| C108 | A data model get of a list or of everything below asks for each instance once | TourProps.v | The set of instances below a name as the reflexive transitive closure of two kinds of steps; the nested calls are shown to go through a list of them by induction on the depth left below the longest name, the list to have no repetitions because instances below different children and items differ in a step, and names to determine the steps; termination by the growth of the name of the object that each nested call resolves to. | partial | Proved for every database of objects with a dot in their names and for lists that have an item at least and no comma or dot in an id: each instance below is asked for exactly once. Every get ends, whatever is answered, and a get of one level always returns. Refuted: a list without items cannot be got; if the ids are lost an item 0 is asked for; the result of everything below is that of the last object only; an unknown name and an id with a dot make a get of everything below use a null pointer; the empty name reads before the text; an object without a dot in its name is its own child; two databases in one process double every child. |
| C109 | A typed read gives what was last written, or says why not | TypedProps.v | The union as one little-endian number of which each type writes and reads its first bits, for all earlier contents; reads after any list of writes by its last element; an object as a map, by induction over the writes. | partial | Proved for all histories of writes and all typed reads of values that are not NULL, for values and for objects' properties, and for values made from the type, length and contents of others. Refuted: a checked read of a boolean or number from a NULL value dereferences it; the unchecked read of a text from a value that holds a number uses the number as an address, where NULL is promised; the length of a NULL text is looked for behind the NULL pointer; properties and objects made from type, length and contents read as NULL. |
| C110 | Element information is one list of all that was answered, and giving it back gives all back | InfoProps.v | Memory as the list of all that malloc gave out; an invariant over the providers: the array is linked to its end, each node owns two texts of its own, and every other cell taken since is given back; reading and freeing by induction over the rest of the array. | partial | Proved for all answers in which no provider says it has more names than it has, with memory that does not run out and realloc always moving the list. Refuted: a reply that says it has more names than it has makes the reader copy from an address nobody wrote. The returned code is the subject of C80. |
| C111 | The list of rows reads as it was answered, and giving it back gives all back | RowmemProps.v | Memory as the list of all that malloc gave out; the texts owned by the nodes are exactly the cells behind the array, by induction over the rows; reading and freeing by induction over the rest of the array. | proved | For replies that hold as many rows as they say and memory that does not run out. What the full name of a row is, is the subject of C79. |
| C112 | A message that is dropped for want of memory takes its own bytes with it and no others | SkipProps.v | A socket as the bytes sent and not yet read; recv as an arbitrary list of what each call does; by induction over that list. | partial | Proved for all messages and all ways a read can go: only the message's own bytes are taken, all of them when it succeeds; the next message is read from its first byte; closing midway is noticed. Refuted: a sender that says more than it sends and stays connected holds the router for ever; a read that fails leaves the rest of the message to be read as the next one. |

## Where the code does not do what its API says

Each line is a proved counterexample: a concrete run of the model, which follows the code line by line.

* `C01_base64_empty_refuted` - Empty data is written as the empty text, but reading the empty text looks at the two characters before its end, which do not exist (undefined behaviour: `in_size - 2` wraps round).
* `C01_base64_lenient_refuted` - Not only texts that stand for data are read: what follows the first '=' and the left-over bits of the last character are not looked at, so three different texts give the same byte.
* `C01_base64_size_refuted` - The size reported for a text is not always its length with the terminator: for one byte of data four characters are written and six are reported, the last one never set.
* `C02_header_without_init_refuted` - The round trip needs the preceding rtMessageHeader_Init: decoding over a header that already holds a longer topic leaves a wrong topic behind.
* `C04_empty_payload_refuted` - A message without payload is never dispatched, and the next byte the client sends gets it disconnected.
* `C05_truncation_refuted` - C05: the integer getters are one kind, so a 32-bit getter returns a truncated value for a wider field instead of failing.
* `C05_unterminated_refuted` - C05: a string field that is not NUL-terminated (possible in a message received from another process) is read past its end.
* `C07_unsendable_refuted` - C07: what cannot be sent: a string value without contents crashes the sender; a signalling NaN float arrives as another bit pattern; an object value without an object is followed by nothing, and the receiver takes the next field for it.
* `C07_length_unchecked_refuted` - C07: a received BOOLEAN, CHAR, BYTE, INT8, UINT8 or DATETIME field whose length is not the size of its type is copied over the value or stops the process: the receiver does not check it.
* `C11_exact_fill_refuted` - Eight 32-bit integers fill the 64 byte block exactly: the last one cannot be read back.
* `C11_long_bytes_refuted` - A byte array of 65536 bytes comes back empty.
* `C12_range_filter_refuted` - (v > 10) AND (v < 20) on 32-bit integers encodes to exactly 64 bytes and cannot be decoded.
* `C12_not_filter_refuted` - No NOT filter can be decoded: its missing right operand is not encoded, but expected by the decoder.
* `C13_overread_refuted` - Reading more than was written succeeds and delivers indeterminate bytes.
* `C13_exact_fill_refuted` - Reading exactly what was written fails when it fills the block.
* `C14_wide_integers_refuted` - ... so "0 exactly for the same content" is false.
* `C14_nan_refuted` - NaN is greater than everything including itself.
* `C14_bytes_refuted` - ... otherwise it reads bytes that were never written to the second.
* `C14_datetime_refuted` - C14, date-times: all of them compare equal.
* `C14_objects_refuted` - C14, objects: not antisymmetric; both of two objects are "greater".
* `C15_unsigned_refuted` - ... otherwise a negative number far out of range is accepted.
* `C15_leading_zero_refuted` - 8-bit types read a leading zero as octal, the wider types do not.
* `C15_bytes_refuted` - Byte arrays do not survive: printed as hexadecimal, read back raw.
* `C20_set_same_property_refuted` - see `reset_same`: the list of the object is linked to itself and never ends
* `C20_set_own_value_refuted` - Setting a property of an object to the value it already has frees the value and then stores it: a use after free.
* `C21_no_alias_refuted` - A row without an alias matches every alias.
* `C21_uninitialised_refuted` - With the alias in the last segment the answer depends on an uninitialised variable.
* `C21_one_letter_refuted` - The element with a one-letter name does not match its own name.
* `C21_malformed_refuted` - A missing bracket is looked for beyond the segment: a malformed name is accepted, and a name that ends in an open bracket is read past its end.
* `C21_leading_dot_refuted` - A name that starts with a dot is accepted, and releasing its chain frees a pointer that was never allocated.
* `C22_table_overwrites_refuted` - C22 fails for arbitrary histories: registering a table after an element inside it makes the element unreachable, although no call failed.
* `C23_no_dot_refuted` - C23 fails without the trailing dot: the check for an existing row looks at another name, the row is added twice, and after one removal it is still there.
* `C23_unregister_any_refuted` - C23. "Unregister row" also accepts the name of any other element, here a plain property.
* `C23_not_a_table_refuted` - C23. Registering a row below an element that is no table runs into an assertion that is compiled out in release builds.
* `C24_placeholder_lookup_refuted` - A lookup with a placeholder where names were registered gets the first of them.
* `C24_left_table_refuted` - A name that once had a table below it is no longer found after the table's owner has left.
* `C24_reregister_refuted` - A name nobody holds any more is refused as a duplicate while something below it is registered.
* `C24_accepted_refuted` - A subscription is reported as accepted although the tree has refused its name, and nothing is delivered to it.
* `C25_validated_refuted` - The check made on registration lets through names one byte or one part too long.
* `C25_lookup_refuted` - Nothing is checked before a lookup: the topic of a message may have more parts.
* `C26_exempt_name_refuted` - The one name exempt from the duplicate check: added twice for one route, it keeps a pointer to the route after the route is gone.
* `C27_answer_refuted` - The answer to a subscription request whose reply topic is the broker's own makes the broker read through a null pointer.
* `C28_timeout_refuted` - A call that times out while its response is being stored returns under the reader's hands: the reader writes into a frame that is gone and posts a destroyed semaphore.
* `C28_leak_refuted` - A response stored between the time-out and the removal, and the first of two responses with the same number, are never released.
* `C30_duplicate_refuted` - C30 refuted: an id that is active can be added again (both calls succeed); the second listener never gets a message
* `C30_counter_refuted` - C30 refuted: the id counter starts at 10000 and does not look at the ids in use
* `C30_removed_refuted` - C30 refuted: a callback can start after the call that removed its listener has returned
* `C31_nan_refuted` - A subscription whose filter compares with a NaN is accepted again and again, and cannot be ended.
* `C32_remaining_refuted` - the subscriptions that have a filter, an interval or a duration stay
* `C32_freed_refuted` - ... and with an unfiltered one behind it, that one is freed and then used
* `C33_wildcard_refuted` - a subscription to every row ends with the first row that goes
* `C33_unrelated_refuted` - so do the subscriptions made later to anything else
* `C33_freed_refuted` - A subscription to the rows of a table inside a row outlives that table; the next row added anywhere compares it with freed memory.
* `C34_prefix_refuted` - Part of a file is trusted: cut between two subscriptions it gives the first of them and everything looks well.
* `C34_uninitialised_refuted` - Cut elsewhere, the rest is read from memory that was never written.
* `C34_long_name_refuted` - A name of 255 bytes is saved but makes the loading give up; it and everything after it is lost.
* `C34_not_filter_refuted` - So is a subscription whose filter is a negation, and everything after it.
* `C34_stale_refuted` - When a provider comes back and refuses a subscription it held, the subscription is gone but the file still has it.
* `C34_number_refuted` - When it accepts it, the subscription gets another number than the one its subscriber was told, and two subscriptions can come to have the same number.
* `C35_raw_error_refuted` - raw publishing does not tell whether the subscribers were reached: an error of a direct send is overwritten by that of the last one
* `C37_leak_refuted` - Whoever subscribed without a filter is sent the truth of somebody else's filter.
* `C38_shared_object_refuted` - A provider that keeps one value object and changes it in place is never noticed: the detector compares the object with itself.
* `C38_datetime_refuted` - Changes of a date-time are never noticed, nor are small changes of large integers.
* `C38_wide_refuted` - A 64-bit integer that changes by one beyond 2^53 is not noticed: the comparison is made in doubles.
* `C38_nan_refuted` - A value that is not a number is published at every poll although it does not change, and a byte string that gets shorter is compared past its end.
* `C38_bytes_refuted` - Byte arrays of different lengths are compared past the end of the shorter one.
* `C38_freed_refuted` - Closing the last handle that has watched values, while another one is about to add its first, frees the detector under it.
* `C39_unsubscribe_refuted` - The flag is looked at only before the wait: the signal that is to stop the thread makes it publish once more, before the interval is over; with the duration just over, it even reports that.
* `C39_overflow_refuted` - An interval of 2147484 seconds or more overflows.
* `C40_complete_refuted` - Unsubscribing when the duration of the subscription is just over: the publishing thread waits for the subscription list, which the unsubscribing thread has while it waits for the thread to end.
* `C40_subscribe_refuted` - Another subscriber that subscribes with an interval at that moment is enough.
* `C41_uninitialised_refuted` - A failure that is neither "no provider" nor the provider's own error: the variable for the provider's error is read without having been set.
* `C41_withdraw_refuted` - Withdrawing a subscription while its request is under way, or from its own callback: the thread goes on with an item that has been freed.
* `C41_close_refuted` - Closing a handle with two pending subscriptions withdraws one; the other gets no callback: the next round uses the handle that has been freed.
* `C41_timeout_refuted` - The timeout given to the call is not used: with 1 second, no callback after 4.
* `C42_fraction_refuted` - A handle timeout with a fraction of a second: the fraction is not slept.
* `C42_overflow_refuted` - From 2147484 seconds on the conversion to milliseconds overflows.
* `C43_dirty_refuted` - A subscription withdrawn while its provider was away is active again after an attempt to subscribe to it that was refused, and from then on every attempt is turned away.
* `C43_raw_refuted` - A list of raw data subscriptions that fails is not undone: the undoing looks for other ones.
* `C43_undo_lost_refuted` - When the reply to an undoing request is lost the consumer forgets the subscription, the provider keeps it.
* `C43_uninitialised_refuted` - When the provider says that it knows the subscription already, the entry made has fields that nothing has set, and the next search that comes to it reads them.
* `C43_async_refuted` - Undoing an asynchronous list withdraws a subscription that had been withdrawn before instead of the pending request, which is left behind.
* `C44_visible_refuted` - C44 fails for the component: after a failed call the elements before the failing one are still found in its tree.
* `C44_late_refuted` - C44 fails when an answer of the broker is late: the call reports an error and the element is served all the same.
* `C44_others_refuted` - A failed call withdraws elements of another component that lie below a listed name: here the very one whose existence made it fail.
* `C45_missing_refuted` - what restoring does not cover
* `C45_unwritable_refuted` - A set of several parameters of which one cannot be written leaves those before it changed.
* `C45_duplicate_refuted` - a parameter named twice gets its first new value back
* `C45_writeonly_refuted` - the value of a parameter that can only be written is not remembered
* `C45_unread_refuted` - the result of reading the value is ignored: when reading fails, a property without value is put back
* `C46_three_refuted` - only what the last component held is remembered: with a third component the first keeps its new value
* `C46_lost_refuted` - a component that could not be reached is forgotten when a later one accepts its part
* `C46_unreachable_refuted` - what was set is not taken back when a later component cannot be reached
* `C46_named_refuted` - the failing parameter is not named once a component has accepted its part
* `C47_forgotten_refuted` - a component that answers with an error is forgotten when a later one succeeds
* `C47_wildcard_refuted` - a wildcard among several names hides the other parameters of its component
* `C48_stale_close_refuted` - C48: the session id is always the same, so a close sent late, for a session that is already over, ends the session another component has opened since. In the history below the second component's session is ended by the first's second close.
* `C49_lookup_refuted` - After compA is closed, its id resolves to compB.
* `C50_concurrent_release_refuted` - Two threads that release the last two references at once: both subtract, the first to test destroys the object, the second reads the freed counter.
* `C51_limit_refuted` - The limit is not kept: however small it is, submissions that follow each other quickly create as many threads.
* `C51_stranded_refuted` - A task whose signal falls between the time out of the only idle worker and its taking the mutex is left behind: no worker remains and nothing goes on.
* `C51_create_refuted` - When a thread cannot be created the submission says so to nobody.
* `C51_stopped_refuted` - A task submitted after the stop is accepted and never executed.
* `C51_stop_refuted` - Stopping with a wait for all tasks does not wait for one whose worker has not started.
* `C52_spurious_refuted` - A single spurious wakeup makes a wait succeed without any post.
* `C52_stolen_wakeup_refuted` - Even without one, a second waiter can take the post before the woken one gets the mutex: one post, two successful waits.
* `C53_elapsed_later_refuted` - rtTime_Later accepts any unsigned int, but from 2^31 ms (24.8 days) on the int result of rtTime_Elapsed wraps and is negative.
* `C54_teardown_refuted` - Closing the last broker connection while direct connections to different providers are open does not end.
* `C55_unregister_silent_refuted` - Dropping an event drops its listeners without telling the provider: it can see a listener added twice with no removal between.
* `C55_requests_dispatched_refuted` - With 31 methods the unsubscribe handler does not fit; the second registration of the event nevertheless reports success, and unsubscribe requests go astray.
* `C56_refuted` - the handler is asked before the registry: it accepts a second subscription that is then refused, and an end of one that never was; nobody tells it about the ones a deleted row ends
* `C57_raw_refuted` - raw subscriptions to a property are refused, and stay
* `C57_abort_refuted` - subscribing to a property that has no get handler ends the provider (an assertion)
* `C58_others_names_refuted` - What is withdrawn may be someone else's: route 2 withdraws a name it never registered.
* `C58_dangling_refuted` - After a route's last name is withdrawn, the topics above still point to the freed route.
* `C58_others_client_refuted` - A client can take away the names of another one.
* `C59_short_header_refuted` - Without those conditions it can: six magic bytes announcing a 5 byte header and one more byte suffice.
* `C59_huge_payload_refuted` - An announced payload of 4 GB - 1.
* `C59_small_buffer_refuted` - In the build with an 8 KB buffer even tame bytes overrun it.
* `C60_reopen_after_close_refuted` - A close that the provider does not confirm leaves the parameter open for good: opening it again is refused as a duplicate.
* `C61_reopen_refuted` - Reopening the only component while the broker is down frees its handle twice.
* `C62_prefix_refuted` - Adding row 1 makes the provider subscribe the subscribers of row 10 once more: under a new number, which they do not know, or not at all.
* `C63_by_refuted` - When a component set the value once, every later change the provider makes by itself is put down to that component: here a set at 3000, noticed at 4000, and a change of the provider's own noticed a day later.
* `C64_poll_refuted` - A poll that finds a changed value, against a thread that subscribes to (or unsubscribes from) any property of the handle.
* `C64_handler_refuted` - A set handler that publishes an event, against a thread that subscribes to the same property.
* `C65_withdrawn_refuted` - A handler is run after the unsubscribe call for it has returned success, as long as the provider cannot be reached to withdraw it.
* `C65_pending_refuted` - Two pending requests for one event that differ in interval only: the second is refused although both could be active side by side.
* `C66_twice_refuted` - The destroying thread and the last worker may both free it.
* `C66_started_refuted` - A worker that has been created and has not run yet is not waited for: its first step uses the freed pool.
* `C67_several_refuted` - with several parameters each provider is told its own name instead
* `C68_incomplete_refuted` - a component that fails after the first is not reported
* `C68_released_refuted` - when the first component has nothing the result has been released, and a third component's part is added to it
* `C68_stale_refuted` - when the first component fails, whether the call fails depends on what the caller's variable held
* `C69_star_refuted` - C69 fails for a star after the last dot below a table with its own get handler: the walk does not end (rbus.c:1690-1735 goes round without advancing).
* `C69_below_property_refuted` - C69 fails for a property below a property: it is left out although asking for it works.
* `C70_own_handler_refuted` - C70 fails for a table with its own get handler: asking for a row works, the wildcard gives nothing, and a query for the whole table gives what the handler says.
* `C70_one_bad_refuted` - C70: one property that cannot be read makes the wildcard query fail, where the partial path query over the same rows leaves it out.
* `C71_missing_refuted` - An element nobody serves makes the components of the others disappear, whichever comes first.
* `C71_lost_refuted` - Success is reported even if no answer arrives.
* `C72_own_name_refuted` - The component's own name is among its elements, although no element of that name is registered by the component.
* `C72_namesake_refuted` - Of two components of the same name only the first one's elements are found.
* `C73_inbox_refuted` - The private reply topic of every connected process is listed as a component.
* `C74_withdrawn_refuted` - A component that has taken back its only element below the path is still found.
* `C74_element_refuted` - A wildcard query that ends with the name of an element finds nobody, although a message for any of its instances would reach the element's owner.
* `C75_row_refuted` - The removal of one row ends a subscription to all rows (C35), but the other rows' properties are still polled; when they are removed as well the provider polls an element that is gone.
* `C75_timer_refuted` - The timer of a subscription that a removed row ends goes on, with a subscription that is gone.
* `C75_empty_refuted` - An interval subscription to all rows of an empty table is accepted and never has a timer.
* `C76_error_refuted` - If recv fails for another reason (ENOMEM, say) between the header and the payload, the payload is taken for messages: the client hands on a message that nobody has sent to it.
* `C76_huge_payload_refuted` - A header that announces a payload of 2^32 - 1 bytes makes the client write a NUL outside of the payload's memory: 32 bytes from the other end are enough.
* `C77_short_write_refuted` - If sendmsg takes only a part, the whole message is sent again behind it: the call succeeds, but the broker does not get the message.
* `C77_long_topic_refuted` - A topic of more than 255 bytes is cut off without an error: the message goes to another topic.
* `C79_no_dot_refuted` - A table name without the dot at its end is accepted, and names are given that belong to nothing.
* `C79_no_row_refuted` - An element other than a row that is registered in a table is shown as row 0.
* `C80_code_refuted` - The failure of a component is hidden by the answer of a later one, and a success by a later failure.
* `C80_own_table_refuted` - A table with a get handler of its own is answered with success and without any entry, not even its own; and below it the name of a row shows "{i}" whatever row was asked for.
* `C81_no_params_refuted` - A later answer that says success and has no out parameters (the parameter may be NULL) leaves the caller reading what was never written.
* `C81_timeout_refuted` - The timeout of an asynchronous call is converted to milliseconds in an int.
* `C81_legacy_refuted` - A provider of the older library answers success with 100. Every other call takes that for success; a method call returns it to the caller as it is.
* `C81_unnamed_refuted` - A handler that fails and leaves a property without a name in its out parameters (both are allowed) makes its provider compare with no string.
* `C82_empty_refuted` - C82 and C83 fail for the empty name: it is read at index -1.
* `C83_empty_refuted` - C83 fails for the empty name.
* `C85_shared_refuted` - Two listeners with one expression and different ids, as two raw data subscriptions to one event with different filters make them: removing the second frees the context of the first, which a later message uses.
* `C85_private_refuted` - After a private listener was removed the handle still says that it has it: the expression is looked for under the name of the topic.
* `C85_full_refuted` - A listener that could not be added, because there are 128, is there for the handle.
* `C85_closed_refuted` - After all listeners were removed, asking for one reads freed memory.
* `C85_private_closed_refuted` - Removing all listeners frees those of private connections, which stay in use there.
* `C85_mixed_refuted` - Removing a listener with another listener's id frees the one and silences the other.
* `C86_visible_refuted` - C86 fails for the component itself: the element stays in its tree, and a query for the path above it, which still leads to the component, still calls its handler.
* `C86_below_refuted` - C86 fails for other components: their elements below a listed name go too.
* `C86_foreign_refuted` - C86 fails for other components: a component can take back what another has registered.
* `C87_empty_refuted` - The empty table name is read one byte before its start.
* `C87_template_refuted` - Asking to remove the row "{i}" removes the template of the table when the handler accepts it; the next row added makes the provider abort.
* `C87_legacy_refuted` - An add handler that returns 100, the success code of the older bus, makes the caller see success though no row is there.
* `C88_lost_answer_refuted` - A lost answer: the consumer is told of an error though the row is there, and adding it again makes a second one.
* `C88_in_use_refuted` - A handler that answers with a number in use makes a second row of this number; one removal leaves the other.
* `C90_lost_refuted` - Publishing reports success although no message reached a subscriber.
* `C90_nobody_refuted` - A process that ends keeps a subscription with an interval at the provider: publishing succeeds with nobody subscribed.
* `C90_refused_refuted` - When the provider's handler refuses an unsubscribe, the subscriber is told that it succeeded; subscribing again succeeds as well, and the next event is compared with fields that were never set.
* `C91_error_refuted` - When the get handler fails, the answer has no flag for the initial value: the subscriber takes the number of the subscription for it and reads an event that is not there.
* `C92_reopen_refuted` - C92: without waiting for the provider the statement is false: a consumer that closes its last parameter and opens it again before the thread of the former connection has ended loses the new entry with it; its requests are refused although it is connected.
* `C92_later_refuted` - C92: a handler that answers later, which a request by the broker allows, leaves an uninitialised response to the direct connection.
* `C93_connecting_refuted` - C93: between the provider's accepting a direct connection and the consumer's connecting, an event is not sent by the broker but written to descriptor 0.
* `C93_gave_up_refuted` - C93: when the consumer cannot connect and gives up, the provider is not told: all later events for it are lost although it has no direct connection.
* `C93_freed_refuted` - C93: the connection a publisher has found is used without the lock: when the consumer closes it in between, freed memory is read.
* `C93_long_refuted` - C93: names whose addresses do not fit are one address: the events of one consumer go to another.
* `C94_lost_refuted` - rbusValue_SetString and SetBytes over a value that holds a property or an object lose it: SetBufferData creates a buffer without looking at what the value held, so the reference is never given back.
* `C94_reassign_refuted` - Storing back what is stored there (rbusProperty_SetValue(p, rbusProperty_GetValue(p)), SetNext, rbusObject_SetProperties, SetChildren and SetNext alike) uses freed memory when the container has the only reference: the setters release the old before they retain the new.
* `C94_same_refuted` - rbusObject_SetPropertyValue with the value the property already has does the same; so does rbusObject_SetProperty with the object's only property.
* `C94_again_refuted` - rbusObject_SetProperty with a property that is already first of two in the object ties the second one to itself: the list never ends (any later append or search for a missing name loops), and releasing everything leaves it behind.
* `C94_circle_refuted` - Circles are not refused: a property appended to itself, an object that is its own child, or an object inside a value of its own property is never freed.
* `C94_copy_refuted` - rbusValue_Copy from a value that holds a property or an object fails an assertion, after the destination has been emptied.
* `C94_parent_refuted` - An object does not keep its parent: rbusObject_GetParent on a child that outlives the parent returns a handle to freed memory.
* `C95_noname_refuted` - rbusObject_SetProperty on an object that has properties reads names: a property without a name (rbusProperty_Init(NULL, ...), which is allowed) makes it read a null pointer.
* `C95_twice_refuted` - rbusObject_SetProperty with a property that carries a list puts the whole list into the object, also where the object has properties of those names already: the object then has two properties of one name.
* `C96_again_refuted` - Setting a field again adds a second one of the same name behind the first; reading still gives the first value.
* `C96_case_refuted` - Two names that differ in the case of letters only are one field when read.
* `C96_topic_refuted` - Setting the send topic of a message a second time frees the old one twice.
* `C96_type_refuted` - Reading a field in another type than it has is not refused: a string read as a number is 0.
* `C96_null_refuted` - Reading a number as a string into a buffer, or as binary data, follows a null pointer.
* `C96_cut_refuted` - A string as long as the buffer loses its last character without notice: the check leaves no room for the terminator.
* `C96_index_refuted` - A negative index into a list of messages is not refused: it gives a message without content.
* `C97_alias_refuted` - A data element is added to the program's inbox as an alias (rbus_addElement, rtConnection_AddAlias). Aliases are not told to the broker again: after a renewal requests for the element find no one.
* `C97_socket_refuted` - If no socket can be had once (descriptors used up), the connection looks as if it had never been made: the next renewal takes itself for the first connection and does not tell the listeners again.
* `C97_fcntl_refuted` - If the descriptor flags cannot be set, the flag stays up though nobody is at work: from then on, whatever happens, every thread that meets a failure waits for good and the connection is never renewed.
* `C97_stuck_refuted` - If the broker dies again while the listeners are being told, the send calls for a renewal, which waits for the one under way: the thread waits for itself, and whatever happens it never comes out and nobody else does.
* `C98_cut_refuted` - The path of a unix socket is cut after 107 bytes: two texts that differ later name the same socket.
* `C98_overflow_refuted` - A host of 128 bytes or more is copied beyond its buffer.
* `C98_unset_refuted` - A host that begins with a digit is taken for an address; if it is none, reading reports success and the connection then ends the process (abort).
* `C98_port_refuted` - A port that is no 16-bit number is taken modulo 65536, and one that is no number as 0.
* `C98_v6_refuted` - An IPv6 address that begins with a letter is taken for the name of an interface and refused, though the library would read it.
* `C99_environment_refuted` - Configuring 0 after starting with a number in the environment gives the compiled-in default, not what the environment says.
* `C99_overflow_refuted` - A file that holds 2147484 seconds or more, up to the largest int, makes the product overflow.
* `C99_unterminated_refuted` - A file that starts with 25 digits is read beyond the end of the buffer.
* `C99_shared_refuted` - Program names of 116 bytes or more share one file for all kinds of calls.
* `C99_negative_refuted` - A subscribe timeout of 2^31 ms or more is taken for a negative one: the subscription is given up at the first failure instead of retried for 25 days or more.
* `C100_two_refuted` - With two providers: each numbers its subscriptions from 3 on, and the consumer tells the listeners of its broker connection apart by that number alone, so an event of one provider runs the handler subscribed to the other's.
* `C100_silenced_refuted` - ... and withdrawing the subscription at one provider silences the one at the other.
* `C100_closed_refuted` - Closing a direct connection while the subscription goes on: the listener moves back to the broker with the handle of the direct connection, which is freed at once; the next event uses it.
* `C100_withdrawn_refuted` - A subscription withdrawn while the provider is away gets a listener again when its direct connection is opened, and its handler runs.
* `C100_renewed_refuted` - A subscription withdrawn while the provider is away and refused when it is renewed counts as existing from then on: it cannot be renewed, and no event arrives.
* `C100_exists_refuted` - A provider that says it has the subscription already makes the consumer look at a field of the new entry that was never set.
* `C100_reported_refuted` - Withdrawing a subscription that the provider refuses to drop, with whatever error, is reported as a success.
* `C101_later_refuted` - A handler that answers later: its context stays on the thread, and the handler of a later event reads it.
* `C101_event_refuted` - An event handler that sets a context passes it on to the handlers of later events.
* `C101_started_refuted` - A method invoked asynchronously does not carry the context of its caller, whatever it is.
* `C101_long_refuted` - A context text of 511 bytes or more is dropped without an error.
* `C101_zero_refuted` - Reading the context into an array of length 0 writes beyond it.
* `C102_get_refuted` - A read whose answer carries a text that means nothing, or no text at all, is a success: the caller gets a value without type or contents.
* `C102_set_refuted` - A set of several parameters with a text that means nothing, other than the last one, is not refused: the set handler is called with a value without type or contents, and the caller is told that everything was set.
* `C102_base64_refuted` - Data sent as base 64 is not decoded: the reader gets the characters of the text.
* `C102_byte_refuted` - A byte is read from any text: the empty one gives zero and everything after the first character is ignored.
* `C102_unsigned_refuted` - A negative number after a space is read as a large number without a sign.
* `C103_provider_refuted` - Registering elements and having subscribers does not make a program listen for the end of its consumers (that call is compiled out): whatever happens, a program that has opened no direct connection itself is told of nobody, so a provider keeps the subscriptions of consumers that have crashed.
* `C103_reopen_refuted` - Closing the program's handle while a direct handle is open leaves the count of direct handles and the mark of the listener behind: after the next rbus_open, direct connections do not bring the listener back.
* `C103_full_refuted` - If there is no room for the listener when the first direct connection is opened, the failure is not reported, and later ones do not try again although there is room.
* `C104_close_refuted` - Closing a connection that is not open leaves the mutex of the core locked, and every path does.
* `C104_handler_refuted` - A subscribe handler that opens a handle, run because a client has gone away, waits for ever for a mutex that its own thread has.
* `C105_careless_refuted` - Each fault of the list can be had.
* `C105_handlers_refuted` - An event handler that unsubscribes takes the mutex of the list of subscriptions again, and when it returns the event's delivery gives back a mutex that is no longer its own; a get handler run by the polling thread has the mutex of the watched parameters, and one run for a subscriber has its element's.
* `C106_forever_refuted` - A set of a name without a dot never returns: each round of the loop that looks for the object leaves the text as it was.
* `C106_braces_refuted` - A value in braces cannot be given to a property: its name is taken for that of an object, even if only a part of the value up to a dot is in braces.
* `C107_unanswered_refuted` - A request that is not delivered or not answered in time is reported as a success without values: the failure of the request is not looked at.
* `C107_empty_refuted` - A property is set to the empty text: no setter is called and success is reported.
* `C107_left_out_refuted` - Of several settings, one whose value has an equals sign or a comma is left out without a word.
* `C107_error_refuted` - A provider that answers a property itself with an error is reported as having answered well.
* `C107_int8_refuted` - A number of 8 bits is reported as the character with that code; 0 is reported as nothing.
* `C107_item_refuted` - What is reported for the items of a list has the name of the list's property: the number of the item is not in it.
* `C108_empty_refuted` - A list that has no items cannot be got: the empty text is split into one empty id, which is not the number of entries, and the get fails.
* `C108_invented_refuted` - If the answer with the ids is lost the list is taken to have an item "0", which nobody has named.
* `C108_masked_refuted` - A get of everything below says that it has succeeded if the last of the objects was got, although another has failed.
* `C108_null_refuted` - A get of everything below a property of an object that is not known, and one of a list with a dot in an id, use a null pointer.
* `C108_blank_refuted` - A get of the empty name reads before the text.
* `C108_root_refuted` - An object whose name has no dot is a child of its own: a get of everything below asks for it in itself, and fails.
* `C108_twice_refuted` - In a process that has made two databases every object is asked for twice, what is below it four times, and so on.
* `C109_any_type_refuted` - C109: reading the text of a value that holds the number 5 uses 5 as an address, although the comment of rbusValue_GetString promises NULL and length 0.
* `C109_null_refuted` - C109: a checked read of a NULL value is an error for texts, bytes, times, properties and objects, but for booleans and numbers NULL is dereferenced.
* `C109_copy_null_refuted` - C109: the length of a NULL text or of NULL bytes is looked for behind the NULL pointer, so such a value cannot be put into a message (rbus.c:815-830).
* `C109_copy_nested_refuted` - C109: a property or an object has length 0, so that a value made from its type, length and contents successfully reads as a NULL one.
* `C110_short_refuted` - A provider whose reply says it has more names than it has makes the program that asked read from an address nobody wrote: the result of reading the next name is not looked at.
* `C112_wait_refuted` - A sender that says more than it sends and stays connected holds the router for ever: whatever recv does, short of failing, dropping the message does not end, and no other connection is looked at.
* `C112_failed_refuted` - When recv fails, for want of memory for one, the code is not looked at, and what is left of the message, here all of it, is read as the next message.

## Testing the theorems

`seeded/LOG.jsonl` lists the realistic bugs that were planted in a scratch copy of the model, one at a time,
with the claim each breaks and the theorems whose proofs then failed. An edit no theorem noticed led to a stronger
theorem ("tightened"), or is noted as not changing the behaviour.
