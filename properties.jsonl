{"id": "C01", "title": "Binary data as text", "statement": "Binary data of up to 1026 bytes that is added to a text message is written as the base 64 text of RFC 4648 for these bytes, is read back unchanged, and two different pieces of data never become the same text; longer data is refused. Reading never goes outside the text or its own buffer, refuses every character outside the alphabet, and accepts only texts that were written for some data.", "quantifier": "all data of any length and content, all texts of any length and content", "why_tests_cant": "The behaviour depends on the length modulo three, on every bit position and on the two limits; tests try a few strings.", "anchors": ["src/rtmessage/rtBase64.c:rtBase64_encode", "src/rtmessage/rtBase64.c:rtBase64_decode", "src/rtmessage/rtBase64.c:decode_base64_char", "src/rtmessage/rtMessage.c:rtMessage_AddBinaryData", "src/rtmessage/rtMessage.c:rtMessage_GetBinaryData"]}
{"id": "C02", "title": "Message header decode inverts encode, and malformed headers are rejected without over-reading", "statement": "For every header whose topic and reply topic are shorter than 256 bytes, rtMessageHeader_Decode applied to the bytes produced by rtMessageHeader_Encode returns the same field values. For every byte string, decode either fails or only returns topics shorter than 256 bytes.", "quantifier": "every header field value and every topic/reply-topic length; every byte string offered to decode", "why_tests_cant": "32-bit field spaces and all string lengths; adversarial byte strings.", "anchors": ["src/rtmessage/rtMessageHeader.c:rtMessageHeader_Encode", "src/rtmessage/rtMessageHeader.c:rtMessageHeader_Decode", "src/rtmessage/rtEncoder.c"]}
{"id": "C03", "title": "Stream framing is independent of how the bytes are split", "statement": "If a client writes a sequence of messages with non-empty payloads to the broker socket, the broker dispatches exactly that sequence, whatever sizes the successive recv calls return.", "quantifier": "every finite sequence of well-formed messages and every way recv can split the byte stream into chunks", "why_tests_cant": "The number of chunkings is exponential in stream length; tests see only the kernel's choice.", "anchors": ["src/rtmessage/rtrouted.c:rtConnectedClient_Read", "src/rtmessage/rtrouteBase.c:rtConnectedClient_Read"]}
{"id": "C04", "title": "Messages with an empty payload are delivered too", "statement": "A well-formed message whose payload is empty is dispatched by the broker and does not affect the sender's connection.", "quantifier": "every header, every position in the stream", "why_tests_cant": "Depends on the zero-length read path, which normal rbus traffic never exercises.", "anchors": ["src/rtmessage/rtrouted.c:rtConnectedClient_Read"]}
{"id": "C05", "title": "Typed message fields read back in order", "statement": "Reading a message with the same sequence of getter types as the setter types that produced it returns the same values in the same order, ends at the end of the message, and each getter fails (and does not return a wrong value) when the next field has a different kind.", "quantifier": "every sequence of setters (string, bytes, int32, uint32, int64, double, nested message) and all their arguments", "why_tests_cant": "Unbounded sequences, nested messages, and all variable-length integer encodings.", "anchors": ["src/core/rbuscore_message.c:rbusMessage_SetString", "src/core/rbuscore_message.c:rbusMessage_GetString", "src/core/rbuscore_message.c:rbusMessage_SetInt32", "src/core/rbuscore_message.c:rbusMessage_GetInt32", "src/core/rbuscore_message.c:rbusMessage_SetBytes", "src/core/rbuscore_message.c:rbusMessage_SetMessage"]}
{"id": "C06", "title": "Call metadata does not disturb the payload", "statement": "When a method call is sent, the callee obtains exactly the caller's method name, trace parent and trace state, and afterwards reads the caller's payload from its first field as if no metadata had been appended.", "quantifier": "every payload (any sequence of fields, any size below 2^31-32768) and all three metadata strings", "why_tests_cant": "Metadata is found by an offset stored in the last five bytes; correctness over all payload sizes needs the integer encoding argument.", "anchors": ["src/core/rbuscore.c:_rbusMessage_SetMetaInfo", "src/core/rbuscore.c:_rbusMessage_GetMetaInfo", "src/core/rbuscore_message.c:rbusMessage_BeginMetaSectionWrite", "src/core/rbuscore_message.c:rbusMessage_EndMetaSectionWrite", "src/core/rbuscore_message.c:rbusMessage_BeginMetaSectionRead"]}
{"id": "C07", "title": "Values survive the wire", "statement": "For every value of every type, a provider that sends it in a get response and the consumer that receives it observe the same type and the same content, including values nested in properties and objects to any depth.", "quantifier": "every value tree: all scalar types and contents, strings, bytes, properties and objects of any depth and width", "why_tests_cant": "Infinite recursive data type.", "anchors": ["src/rbus/rbus.c:rbusValue_appendToMessage", "src/rbus/rbus.c:rbusValue_initFromMessage", "src/rbus/rbus.c:rbusProperty_initFromMessage", "src/rbus/rbus.c:rbusPropertyList_appendToMessage", "src/rbus/rbus.c:rbusPropertyList_initFromMessage"]}
{"id": "C08", "title": "Objects survive the wire", "statement": "rbusObject_appendToMessage followed by rbusObject_initFromMessage reproduces the object's name, type, property list (order included) and child objects recursively, and consumes exactly the bytes it wrote so the following fields of the message are still readable.", "quantifier": "every object tree and every following message content", "why_tests_cant": "Infinite recursive data type; desynchronisation only shows in later fields.", "anchors": ["src/rbus/rbus.c:rbusObject_appendToMessage", "src/rbus/rbus.c:rbusObject_initFromMessage"]}
{"id": "C09", "title": "Filters survive the wire", "statement": "A subscription filter sent in a subscribe request is reconstructed by the provider as the same expression tree.", "quantifier": "every filter expression tree (relational and AND/OR/NOT nodes of any depth) and every comparison value", "why_tests_cant": "Infinite recursive data type.", "anchors": ["src/rbus/rbus.c:rbusFilter_AppendToMessage", "src/rbus/rbus.c:rbusFilter_InitFromMessage"]}
{"id": "C10", "title": "Events survive the wire", "statement": "The consumer's handler sees the event name, type and data object the provider published, together with the subscription's own filter, interval, duration and component id.", "quantifier": "every event and subscription", "why_tests_cant": "Composition of recursive codecs with optional fields.", "anchors": ["src/rbus/rbus.c:rbusEventData_appendToMessage", "src/rbus/rbus.c:rbusEventData_updateFromMessage"]}
{"id": "C11", "title": "Values survive the binary buffer encoding", "statement": "Encoding any value with rbusValue_Encode and decoding the buffer with rbusValue_Decode returns the same value.", "quantifier": "every value of every type and length", "why_tests_cant": "Failure depends on the exact total encoded length relative to the allocation block size and on lengths above 65535.", "anchors": ["src/rbus/rbus_value.c:rbusValue_Encode", "src/rbus/rbus_value.c:rbusValue_Decode", "src/rbus/rbus_buffer.c:rbusBuffer_Read", "src/rbus/rbus_buffer.c:rbusBuffer_WriteTypeLengthValue", "src/rbus/rbus_buffer.c:rbusBuffer_Reserve"]}
{"id": "C12", "title": "Filters survive the binary buffer encoding", "statement": "Encoding any filter with rbusFilter_Encode and decoding it with rbusFilter_Decode returns the same expression tree.", "quantifier": "every filter expression tree", "why_tests_cant": "Infinite recursive data type; NOT nodes are a special case.", "anchors": ["src/rbus/rbus_filter.c:rbusFilter_Encode", "src/rbus/rbus_filter.c:rbusFilter_Decode"]}
{"id": "C13", "title": "Buffer reads never return bytes that were not written", "statement": "rbusBuffer_Read* succeed only when enough unread written bytes remain, and then return exactly the next written bytes.", "quantifier": "every sequence of writes and reads on a buffer", "why_tests_cant": "Depends on allocation rounding; only some total lengths expose the difference.", "anchors": ["src/rbus/rbus_buffer.c:rbusBuffer_Read", "src/rbus/rbus_buffer.c:rbusBuffer_Write"]}
{"id": "C14", "title": "Value comparison is a consistent order", "statement": "rbusValue_Compare returns 0 exactly for values with the same type and content, is antisymmetric, and orders numbers by magnitude, strings lexicographically and date-times chronologically.", "quantifier": "every pair and triple of values of the same type", "why_tests_cant": "Quadratic/cubic in the value space; counterexamples sit above 2^53 and in particular date fields.", "anchors": ["src/rbus/rbus_value.c:rbusValue_Compare", "src/rbus/rbus_value.c:rbusValue_CoerceNumericToDouble"]}
{"id": "C15", "title": "Integer values survive conversion to text and back", "statement": "For every integer-typed value v, rbusValue_SetFromString(type, rbusValue_ToString(v)) succeeds and yields v; text denoting a number outside the type's range is rejected.", "quantifier": "every value of INT8/UINT8/INT16/UINT16/INT32/UINT32/INT64/UINT64/BOOLEAN and every input text", "why_tests_cant": "2^64 values; all texts.", "anchors": ["src/rbus/rbus_value.c:rbusValue_SetFromString", "src/rbus/rbus_value.c:rbusValue_ToString"]}
{"id": "C16", "title": "Filter evaluation is the boolean function the expression denotes", "statement": "rbusFilter_Apply returns, for every expression and value, the truth value obtained by reading relational nodes as comparisons with the filter value and logic nodes as AND, OR and NOT.", "quantifier": "every filter expression tree and every value", "why_tests_cant": "Infinite expressions.", "anchors": ["src/rbus/rbus_filter.c:rbusFilter_Apply"]}
{"id": "C17", "title": "A vector behaves as a list", "statement": "Any sequence of rtVector operations gives the same observable results (size, item at index, find) as the same operations on a list, never reads or writes outside its allocation, and removal preserves the order of the remaining items.", "quantifier": "every sequence of create/push/remove/remove-by-compare/find/at operations", "why_tests_cant": "Growth boundaries at every multiple of the block size combined with removals.", "anchors": ["src/rtmessage/rtVector.c:rtVector_PushBack", "src/rtmessage/rtVector.c:rtVector_RemoveItem", "src/rtmessage/rtVector.c:rtVector_RemoveItemByCompare", "src/rtmessage/rtVector.c:rtVector_Find"]}
{"id": "C18", "title": "A hash map behaves as a map", "statement": "Any sequence of rtHashMap Set/Get/Contains/Remove gives the same results as an ideal finite map, regardless of collisions and of automatic growing and shrinking.", "quantifier": "every sequence of operations and every set of keys (including colliding ones)", "why_tests_cant": "All key sets and resize points.", "anchors": ["src/rtmessage/rtHashMap.c:rtHashMap_Set", "src/rtmessage/rtHashMap.c:rtHashMap_Get", "src/rtmessage/rtHashMap.c:rtHashMap_Remove", "src/rtmessage/rtHashMap.c:rtHashMap_Resize"]}
{"id": "C19", "title": "A linked list behaves as a list", "statement": "Any sequence of rtList operations (push front/back, insert before, remove, remove-by-compare, iterate) gives the same results as on a mathematical list, with forward and backward traversal consistent, even though removed nodes are recycled.", "quantifier": "every sequence of operations", "why_tests_cant": "Node recycling makes stale links depend on long histories.", "anchors": ["src/rtmessage/rtList.c"]}
{"id": "C20", "title": "Setting an object property overwrites exactly that property", "statement": "After rbusObject_SetProperty/SetValue(name, v), GetValue(name) is v, every other name is unchanged, a name occurs at most once, and the relative order of existing properties is kept.", "quantifier": "every object and every sequence of sets", "why_tests_cant": "Arbitrary sequences and name collisions.", "anchors": ["src/rbus/rbus_object.c:rbusObject_SetProperty", "src/rbus/rbus_object.c:rbusObject_SetValue", "src/rbus/rbus_object.c:rbusObject_GetValue"]}
{"id": "C21", "title": "Event-name matching implements the naming rule", "statement": "A subscription token chain matches an element instance exactly when the two paths have the same number of segments and each subscription segment is equal to the element segment, is a wildcard for a row, or names the row by number or by alias.", "quantifier": "every subscription name and every element path", "why_tests_cant": "All names, all row numbers and aliases.", "anchors": ["src/rbus/rbus_tokenchain.c:TokenChain_create", "src/rbus/rbus_tokenchain.c:TokenChain_match"]}
{"id": "C22", "title": "The element registry finds what was registered", "statement": "After registering elements, looking up a registered full name returns that element, looking up any name that was not registered returns nothing, and registering further elements never changes the result for earlier ones.", "quantifier": "every sequence of registrations and every looked-up name", "why_tests_cant": "Trees of arbitrary shape and registration order.", "anchors": ["src/rbus/rbus_element.c:insertElement", "src/rbus/rbus_element.c:retrieveElement"]}
{"id": "C23", "title": "Adding and deleting table rows touches only that row", "statement": "Adding row n makes exactly the row's own element paths resolvable; deleting it makes exactly those unresolvable again; all other rows and elements are unaffected.", "quantifier": "every registry, table and sequence of row additions/deletions", "why_tests_cant": "Nested tables and arbitrary histories.", "anchors": ["src/rbus/rbus_element.c:instantiateTableRow", "src/rbus/rbus_element.c:deleteTableRow", "src/rbus/rbus_element.c:retrieveInstanceElement"]}
{"id": "C24", "title": "The broker routes a topic to the clients registered for it", "statement": "A lookup of topic t returns exactly the routes that were added for t (or for a table template of t) and not since removed.", "quantifier": "every sequence of route additions/removals and every topic", "why_tests_cant": "Histories of arbitrary length; shared prefixes.", "anchors": ["src/rtmessage/rtRoutingTree.c:rtRoutingTree_AddTopicRoute", "src/rtmessage/rtRoutingTree.c:rtRoutingTree_GetTopicRoutes", "src/rtmessage/rtRoutingTree.c:rtRoutingTree_RemoveRoute"]}
{"id": "C25", "title": "A topic name never overflows the broker's parse buffers", "statement": "Every topic string is either rejected or split into at most 32 tokens held in a 512-byte buffer.", "quantifier": "every byte string used as a topic in a subscribe, unsubscribe, send or discovery request", "why_tests_cant": "Boundary lengths and token counts; adversarial input.", "anchors": ["src/rtmessage/rtRoutingTree.c:rtRoutingTree_ValidateExpression", "src/rtmessage/rtRoutingTree.c:rtRoutingTree_TokenizeExpression"]}
{"id": "C26", "title": "After a client disconnects nothing is routed to it", "statement": "Once the broker has processed a client's disconnect, no later lookup of any topic returns a route to that client, and the routes of other clients are unchanged.", "quantifier": "every broker history and every disconnecting client", "why_tests_cant": "Arbitrary histories, including re-registration and duplicate registration.", "anchors": ["src/rtmessage/rtrouted.c:rtRouted_ClearClientRoutes", "src/rtmessage/rtRoutingTree.c:rtRoutingTree_RemoveRoute"]}
{"id": "C27", "title": "A request that cannot be delivered is answered", "statement": "When a request is sent to a topic nobody serves, the requester receives exactly one response with the undeliverable flag and the request's sequence number; no other client receives anything; non-request messages produce no such response.", "quantifier": "every broker state and message", "why_tests_cant": "All states and headers; a loop between request and response must be impossible for every reply topic.", "anchors": ["src/rtmessage/rtrouted.c:rtRouter_DispatchMessageFromClient"]}
{"id": "C28", "title": "A response completes exactly the request it answers", "statement": "Whatever the arrival order of responses, each pending request is completed only by a response carrying its own sequence number, at most once; responses for requests that are no longer pending are discarded and change nothing.", "quantifier": "every interleaving of request registration, response arrival, timeout and removal", "why_tests_cant": "Schedules.", "anchors": ["src/rtmessage/rtConnection.c:rtConnection_SendRequestInternal", "src/rtmessage/rtConnection.c:rtConnection_Read"]}
{"id": "C29", "title": "Incoming messages are handed to callbacks in order and none is duplicated", "statement": "The sequence of messages delivered to user callbacks is a subsequence of the arrival sequence, in order and without duplicates; a message is missing only if the queue was full on its arrival or no listener had its id.", "quantifier": "every interleaving of arrivals and dispatches", "why_tests_cant": "Schedules and queue-full conditions.", "anchors": ["src/rtmessage/rtConnection.c:rtConnection_Read", "src/rtmessage/rtConnection.c:rtConnection_CallbackThread"]}
{"id": "C30", "title": "A listener receives exactly the messages for its subscription id", "statement": "At every moment listener ids are unique among active listeners, the table never exceeds its capacity, and a message is dispatched to the active listener with its id if any and to no other.", "quantifier": "every sequence of add/remove listener operations and messages", "why_tests_cant": "Arbitrary histories with slot reuse.", "anchors": ["src/rtmessage/rtConnection.c:rtConnection_AddListenerWithId", "src/rtmessage/rtConnection.c:rtConnection_RemoveListener", "src/rtmessage/rtConnection.c:rtConnection_AddListener"]}
{"id": "C31", "title": "The subscription registry holds each subscription once", "statement": "At every point the provider's registry holds at most one subscription per (listener, component, event name, filter, interval, duration, raw flag); a second subscribe with the same key is refused and an unsubscribe removes exactly the subscription with its key.", "quantifier": "every sequence of subscribe/unsubscribe requests", "why_tests_cant": "Arbitrary histories.", "anchors": ["src/rbus/rbus_subscriptions.c:rbusSubscriptions_addSubscription", "src/rbus/rbus_subscriptions.c:rbusSubscriptions_getSubscription", "src/rbus/rbus_subscriptions.c:rbusSubscriptions_removeSubscription", "src/rbus/rbus.c:subscribeHandlerImpl"]}
{"id": "C32", "title": "A disconnected consumer's subscriptions are all removed", "statement": "When a consumer disconnects, afterwards the provider's registry holds none of its subscriptions and all those of other consumers.", "quantifier": "every registry content and disconnecting listener", "why_tests_cant": "All combinations of subscription attributes.", "anchors": ["src/rbus/rbus_subscriptions.c:rbusSubscriptions_handleClientDisconnect"]}
{"id": "C33", "title": "Deleting a row ends only that row's subscriptions", "statement": "When an element instance is deleted, subscriptions that target only that instance end and every other subscription (including wildcard subscriptions that still match other rows) stays.", "quantifier": "every registry content, element tree and deleted element", "why_tests_cant": "All combinations of matching and non-matching subscriptions and their order.", "anchors": ["src/rbus/rbus_subscriptions.c:rbusSubscriptions_onElementDeleted"]}
{"id": "C34", "title": "Subscriptions survive a provider restart", "statement": "Loading the cache file written by the previous run restores exactly the saved subscriptions (same keys and auto-publish flags), and a truncated or corrupted file is never partially trusted.", "quantifier": "every saved registry content and every crash point during the write (every prefix of the file)", "why_tests_cant": "Crash points and all contents.", "anchors": ["src/rbus/rbus_subscriptions.c:rbusSubscriptions_saveCache", "src/rbus/rbus_subscriptions.c:rbusSubscriptions_loadCache"]}
{"id": "C35", "title": "A published event reaches each subscriber of the element exactly once", "statement": "rbusEvent_Publish sends, for a non-value-change event, exactly one message to every current subscriber of the element, addressed to that subscriber and carrying its subscription id, and nothing to anyone else; with no subscribers it reports that and sends nothing.", "quantifier": "every registry content and event", "why_tests_cant": "All subscriber sets.", "anchors": ["src/rbus/rbus.c:rbusEvent_Publish"]}
{"id": "C36", "title": "A filtered value-change subscription fires exactly on threshold crossings", "statement": "A subscriber with a filter receives a value-change event exactly when the filter's truth value differs between old and new value, and over any run of consecutive changes the truth values it is told alternate.", "quantifier": "every filter and every sequence of values", "why_tests_cant": "Arbitrary histories of values.", "anchors": ["src/rbus/rbus.c:rbusEvent_Publish", "src/rbus/rbus_filter.c:rbusFilter_Apply"]}
{"id": "C37", "title": "Subscribers do not see each other's filters", "statement": "The event data delivered to a subscriber depends only on the published event and that subscriber's own filter, not on which other subscriptions exist.", "quantifier": "every event and every set of other subscribers", "why_tests_cant": "All subsets and orders of other subscribers.", "anchors": ["src/rbus/rbus.c:rbusEvent_Publish"]}
{"id": "C38", "title": "Value-change detection reports every observed change once", "statement": "For an auto-published property, polling emits an event exactly when the polled value differs from the previously polled one, with old value equal to the previously polled value, so the events form an unbroken chain.", "quantifier": "every sequence of polled values and of records being added and removed", "why_tests_cant": "Arbitrary histories.", "anchors": ["src/rbus/rbus_valuechange.c:rbusValueChange_pollingThreadFunc"]}
{"id": "C39", "title": "An interval subscription with a duration publishes the promised number of events", "statement": "With duration d and interval i > 0, the consumer receives exactly floor(d/i) interval events followed by exactly one duration-complete event, then nothing; failed reads of the property delay but do not consume the count; with duration 0 it never completes.", "quantifier": "every interval, duration and sequence of read outcomes", "why_tests_cant": "Unbounded sequences.", "anchors": ["src/rbus/rbus_intervalsubscription.c:PublishingThreadFunc"]}
{"id": "C40", "title": "Unsubscribing from an interval subscription cannot block forever", "statement": "In every schedule, an unsubscribe request for an interval subscription and the publishing thread both eventually finish.", "quantifier": "every interleaving of the unsubscribe handler and the publishing thread", "why_tests_cant": "Needs a particular interleaving of three locks.", "anchors": ["src/rbus/rbus_intervalsubscription.c:PublishingThreadFunc", "src/rbus/rbus_intervalsubscription.c:rbusInterval_RemoveSubscriptionRecord", "src/rbus/rbus.c:subscribeHandlerImpl"]}
{"id": "C41", "title": "An asynchronous subscribe ends with exactly one callback", "statement": "For every asynchronous subscribe, whatever the sequence of provider answers, the completion callback runs exactly once, only after success, a definitive error or expiry of the timeout, and retries use waits of 1s, 2s, 4s, ... up to the configured maximum.", "quantifier": "every sequence of provider responses and elapsed times", "why_tests_cant": "Unbounded retry histories.", "anchors": ["src/rbus/rbus_asyncsubscribe.c:rbusAsyncSubscribe_SendSubscriptionRequests", "src/rbus/rbus_asyncsubscribe.c:rbusAsyncSubscribe_DetermineNextSendTime"]}
{"id": "C42", "title": "A synchronous subscribe stops retrying at its timeout", "statement": "A subscribe with timeout T against a provider that never appears sleeps T in total (never more than T), doubling waits up to the maximum, and terminates.", "quantifier": "every timeout and every sequence of responses", "why_tests_cant": "All timeouts and failure histories; termination.", "anchors": ["src/rbus/rbus.c:rbusEvent_SubscribeWithRetries"]}
{"id": "C43", "title": "Bulk subscribe is all-or-nothing", "statement": "If rbusEvent_SubscribeEx fails, none of the subscriptions in the list that were not active before remain active; if it succeeds all are.", "quantifier": "every list of subscriptions and every pattern of provider answers", "why_tests_cant": "All failure positions and list contents.", "anchors": ["src/rbus/rbus.c:rbusEvent_SubscribeEx", "src/rbus/rbus.c:rbusEvent_UnsubscribeEx", "src/rbus/rbus.c:rbusEvent_SubscribeExRawData"]}
{"id": "C44", "title": "Registering data elements is all-or-nothing", "statement": "If rbus_regDataElements fails, none of the elements in the list that were not registered before is registered at the broker or visible in the component afterwards.", "quantifier": "every list of elements and every failure position", "why_tests_cant": "All failure positions and causes.", "anchors": ["src/rbus/rbus.c:rbus_regDataElements", "src/rbus/rbus.c:rbus_unregDataElements"]}
{"id": "C45", "title": "A failed multi-set on one component leaves its parameters unchanged", "statement": "If a set request for several parameters of one component fails, every parameter has the value it had before the request.", "quantifier": "every list of (parameter, value) pairs and every pattern of handler outcomes", "why_tests_cant": "All failure positions, missing elements and repeated names.", "anchors": ["src/rbus/rbus.c:_set_callback_handler"]}
{"id": "C46", "title": "A multi-set across components reports failure and undoes earlier components", "statement": "If rbus_setMulti returns success then every component accepted its part; if any component fails the call fails and parameters already set in other components are restored.", "quantifier": "every partition of parameters over components and every pattern of component outcomes", "why_tests_cant": "All failure patterns.", "anchors": ["src/rbus/rbus.c:_setMultiInternal", "src/rbus/rbus.c:rbus_setMulti"]}
{"id": "C47", "title": "A multi-get asks each owner exactly once for each parameter and reports failures", "statement": "rbus_getExt with several parameters sends to each owning component one request containing exactly the parameters it owns, in order; if it returns success every requested parameter is in the result.", "quantifier": "every list of parameters, ownership and pattern of component outcomes", "why_tests_cant": "All partitions and failure patterns.", "anchors": ["src/rbus/rbus.c:rbus_getExt"]}
{"id": "C48", "title": "At most one session is open", "statement": "The session manager grants a session only when none is open; a session ends only through an end request carrying its id; the current-session query always reports the open one.", "quantifier": "every sequence of request/end/query operations by any components", "why_tests_cant": "Arbitrary histories.", "anchors": ["src/session_manager/session_manager.c"]}
{"id": "C49", "title": "Component ids are unique and an id resolves to its own handle or nothing", "statement": "No two handles opened in a process ever get the same component id, and looking up an id yields the live handle with that id or nothing.", "quantifier": "every sequence of open/close operations and every id", "why_tests_cant": "Arbitrary histories.", "anchors": ["src/rbus/rbus_handle.c:rbusHandleList_GetByComponentID", "src/rbus/rbus_handle.c:rbusHandleList_Add", "src/rbus/rbus.c:rbus_open"]}
{"id": "C50", "title": "Shared reference-counted objects are destroyed exactly once", "statement": "When n references to a retained object are released by any threads in any order, the destructor runs exactly once, after the last release.", "quantifier": "every number of references and every interleaving of the atomic operations", "why_tests_cant": "Schedules.", "anchors": ["src/rtmessage/rtRetainable.h", "src/rtmessage/rtRetainable.c"]}
{"id": "C51", "title": "A pool task is executed exactly once and the thread limit holds", "statement": "Every task accepted by rtThreadPool_RunTask is eventually executed exactly once, in submission order of dequeueing, and the number of worker threads never exceeds the configured maximum.", "quantifier": "every interleaving of submitters and workers", "why_tests_cant": "Schedules.", "anchors": ["src/rtmessage/rtThreadPool.c:rtThreadPool_RunTask", "src/rtmessage/rtThreadPool.c:rtThreadPool_WorkerThread"]}
{"id": "C52", "title": "A semaphore wait returns success only by consuming a post", "statement": "The number of successful waits never exceeds the number of posts.", "quantifier": "every interleaving of posts, waits, timeouts and spurious wakeups", "why_tests_cant": "Schedules; spurious wakeups cannot be provoked.", "anchors": ["src/rtmessage/rtSemaphore.c"]}
{"id": "C53", "title": "Time arithmetic is consistent", "statement": "rtTime_Later(t, ms) is a normalised time whose difference from t measured by rtTime_Elapsed is ms, and rtTime_Compare orders times chronologically.", "quantifier": "every normalised time and every non-negative offset", "why_tests_cant": "Carry boundaries.", "anchors": ["src/rtmessage/rtTime.c:rtTime_Later", "src/rtmessage/rtTime.c:rtTime_Elapsed", "src/rtmessage/rtTime.c:rtTime_Compare"]}
{"id": "C54", "title": "Closing the connection always terminates", "statement": "Tearing down the client's private connections terminates whatever set of providers it is directly connected to.", "quantifier": "every list of direct connections", "why_tests_cant": "Termination for all lists.", "anchors": ["src/core/rbuscore.c:_rbuscore_destroy_clientPrivate_connections"]}
{"id": "C55", "title": "A core-event listener is notified once per transition", "statement": "For each registered core event, every listener is stored at most once; the provider's subscribe callback is invoked with 'added' exactly when a listener becomes stored and with 'removed' exactly when it stops being stored; publish sends exactly one message to each stored listener.", "quantifier": "every sequence of add/remove requests", "why_tests_cant": "Arbitrary histories.", "anchors": ["src/core/rbuscore.c:server_event_addListener", "src/core/rbuscore.c:server_event_removeListener", "src/core/rbuscore.c:rbus_publishEvent"]}
{"id": "C56", "title": "The provider's subscribe handler sees a balanced history", "statement": "The calls of a provider's event subscribe handler alternate per subscription: SUBSCRIBE when a subscription becomes active and UNSUBSCRIBE when it ends, with no SUBSCRIBE for a subscription already active and no UNSUBSCRIBE for one that is not.", "quantifier": "every sequence of subscribe/unsubscribe requests and handler answers", "why_tests_cant": "Arbitrary histories.", "anchors": ["src/rbus/rbus.c:subscribeHandlerImpl"]}
{"id": "C57", "title": "A failed subscribe leaves no subscription behind", "statement": "If the provider answers a subscribe request with an error, its registry is as it was before the request.", "quantifier": "every registry, element and request", "why_tests_cant": "All element types and flag combinations.", "anchors": ["src/rbus/rbus.c:subscribeHandlerImpl"]}
{"id": "C58", "title": "Removing a broker topic affects only the requesting client", "statement": "When a client removes an alias it registered, routes of other clients remain and are still found by lookup, and no lookup ever uses a route that has been freed.", "quantifier": "every broker history", "why_tests_cant": "Arbitrary histories with shared prefixes.", "anchors": ["src/rtmessage/rtRoutingTree.c:rtRoutingTree_RemoveTopic", "src/rtmessage/rtrouted.c:rtRouted_OnMessageSubscribe"]}
{"id": "C59", "title": "No client bytes make the broker touch memory outside its read buffer", "statement": "Whatever bytes a client writes to its socket, and however they are split, the broker neither reads nor writes outside the client's read buffer.", "quantifier": "every byte stream and every chunking", "why_tests_cant": "Adversarial inputs are unbounded.", "anchors": ["src/rtmessage/rtrouted.c:rtConnectedClient_Read", "src/rtmessage/rtMessageHeader.c:rtMessageHeader_Decode"]}
{"id": "C60", "title": "After a direct connection to a parameter is closed it can be opened again", "statement": "When closing a direct connection to a parameter returns, the connection is gone on both sides, so that opening a direct connection to the same parameter again succeeds.", "quantifier": "every history of opens and closes of direct connections, and every outcome of the messages they send", "why_tests_cant": "Needs a close whose confirmation is lost, followed by a reopen.", "anchors": ["src/rbus/rbus.c:rbus_openDirect", "src/rbus/rbus.c:rbus_closeDirect", "src/core/rbuscore.c:rbuscore_closePrivateConnection"]}
{"id": "C61", "title": "Opening and closing components never touches freed memory", "statement": "In every sequence of opening and closing components in a process, including opens that fail, no handle is freed twice and no freed handle is used.", "quantifier": "every sequence of opens and closes and every outcome of the broker connection", "why_tests_cant": "Failure paths of the open need a broker that disappears at the right moment.", "anchors": ["src/rbus/rbus.c:rbus_open", "src/rbus/rbus.c:rbus_close", "src/rbus/rbus_handle.c:rbusHandleList_Remove"]}
{"id": "C62", "title": "A new row leaves existing subscriptions as they are", "statement": "When a row is added to a table, every existing subscription keeps its identity (key, subscription id, auto-publish flag), and no subscribe handler is asked about a subscription it has already accepted.", "quantifier": "every registry content and every added row", "why_tests_cant": "Row names that are prefixes of other row names, combined with existing subscribers.", "anchors": ["src/rbus/rbus.c:registerTableRow", "src/rbus/rbus_subscriptions.c:rbusSubscriptions_resubscribeRowElementCache"]}
{"id": "C63", "title": "Value-change events name the component that made the change", "statement": "The 'by' field of a value-changed event names the component whose set caused the change when it came through the bus, and the provider itself when the provider changed the value.", "quantifier": "Every sequence of sets by any components, provider-side changes and polls, at any times", "why_tests_cant": "Tests change a value once and look at one event; wrong attribution needs a set, a poll and a later provider-side change in that order", "anchors": ["src/rbus/rbus_valuechange.c:rbusValueChange_pollingThreadFunc", "src/rbus/rbus_element.c:setPropertyChangeComponent", "src/rbus/rbus.c:_set_callback_handler"]}
{"id": "C64", "title": "Subscribing to a property cannot block against change detection", "statement": "However subscribe, unsubscribe and row operations of any number of threads interleave with the polling of watched properties, some thread can always go on, so that every subscribe and unsubscribe request is eventually answered.", "quantifier": "Every interleaving of polling with any number of subscribing and unsubscribing threads", "why_tests_cant": "A lock order inversion only shows in a window of a few instructions within a poll that finds a changed value", "anchors": ["src/rbus/rbus_valuechange.c:rbusValueChange_pollingThreadFunc", "src/rbus/rbus_valuechange.c:rbusValueChange_AddPropertyNode", "src/rbus/rbus.c:subscribeHandlerImpl", "src/rbus/rbus.c:rbusEvent_Publish"]}
{"id": "C65", "title": "An event reaches exactly the handler of the subscription in force", "statement": "After any history of subscribe and unsubscribe calls, asynchronous completions and event messages, an event message runs exactly once the handler given with the latest successful and not withdrawn subscription to its event, filter, interval and duration, and runs no handler if there is none. Subscribing to what is in force is refused without a request to the provider.", "quantifier": "Every history of single and bulk subscribe and unsubscribe calls, with every outcome of the requests they send, and every event message", "why_tests_cant": "The number of histories is unbounded, and the wrong ones need a provider that disappears between two calls", "anchors": ["src/rbus/rbus.c:_master_event_callback_handler", "src/rbus/rbus.c:rbusEvent_SubscribeWithRetries", "src/rbus/rbus.c:rbusEventSubscription_find", "src/rbus/rbus.c:rbusEvent_UnsubscribeEx"]}
{"id": "C66", "title": "Destroying a thread pool frees it once, after its last thread", "statement": "After rtThreadPool_Destroy the pool is freed exactly once, by the last thread that uses it, and no thread uses it afterwards.", "quantifier": "Every schedule of workers, submitters and the destroying thread", "why_tests_cant": "The race needs the last worker to leave within a few instructions of the destroying thread", "anchors": ["src/rtmessage/rtThreadPool.c:rtThreadPool_Destroy", "src/rtmessage/rtThreadPool.c:rtThreadPool_TryRealDestroy", "src/rtmessage/rtThreadPool.c:rtThread_WorkerThreadFunc"]}
{"id": "C67", "title": "Providers are told who asks", "statement": "The get and set handlers of a provider are told the name of the component whose call made the request.", "quantifier": "every call of rbus_set, rbus_setMulti(Ext), rbus_get and rbus_getExt, every list of parameters and every provider", "why_tests_cant": "The name is only looked at by providers that treat components differently", "anchors": ["src/rbus/rbus.c:rbus_getExt", "src/rbus/rbus.c:rbus_get", "src/rbus/rbus.c:_setMultiInternal", "src/rbus/rbus.c:_set_callback_handler"]}
{"id": "C68", "title": "A wildcard query returns everything or fails", "statement": "rbus_getExt with one wildcard query returns, in the order of the components found for it, everything they have for it, with the right count; if a component fails the call fails; the returned list can be used and released by the caller.", "quantifier": "every list of components and every pattern of their answers, every initial content of the caller's variable", "why_tests_cant": "Needs several components of which the first has nothing or one fails", "anchors": ["src/rbus/rbus.c:rbus_getExt", "src/rbus/rbus.c:_getExt_response_parser"]}
{"id": "C69", "title": "A partial path query returns exactly the readable properties below the path", "statement": "Asking a component for a path that ends in a dot returns, in the order of its data model, the value of every property with a get handler below the path and outside row templates, once, under the path asked for followed by its own path; properties whose handler fails are left out; each name asked for on its own gives the same value.", "quantifier": "every data model, every path and every behaviour of the get handlers", "why_tests_cant": "Data models are unbounded trees; tables with and without their own get handler, aliases and row templates combine", "anchors": ["src/rbus/rbus.c:_get_recursive_partialpath_handler", "src/rbus/rbus.c:_convert_reg_name_to_instance_name", "src/rbus/rbus.c:get_recursive_wildcard_handler"]}
{"id": "C70", "title": "A wildcard query returns what its rows return", "statement": "Asking a component for a name with a star in the place of a row returns, in the order of the table, what asking for the name with each row number in its place returns, or the error of the first row that fails.", "quantifier": "every data model, every name with any number of stars and every behaviour of the get handlers", "why_tests_cant": "The number of rows and stars is unbounded", "anchors": ["src/rbus/rbus.c:get_recursive_wildcard_handler"]}
{"id": "C71", "title": "Component lookup names the provider of every element", "statement": "Asking for the components of a list of element names returns, in the order of the elements, the component name of every live registration that serves the element, and reports an error if the lookup could not be performed.", "quantifier": "All histories of registrations, withdrawals and disconnections of any clients, all lists of element names.", "why_tests_cant": "Answers mix counts and names in one flat message; lists with missing or multiply served elements are never generated, and a lost request is hard to stage.", "anchors": ["src/rbus/rbus.c:rbus_discoverComponentName", "src/core/rbuscore.c:rbus_discoverElementsObjects", "src/rtmessage/rtrouted.c:rtRouted_OnMessageDiscoverElementObjects"]}
{"id": "C72", "title": "Element lookup lists exactly what a component has registered", "statement": "Asking for the elements of a component returns each element the component has registered and not withdrawn exactly once, and nothing else; for a name that is no component's it returns an empty list.", "quantifier": "All histories of registrations, withdrawals and disconnections of any clients, all component names.", "why_tests_cant": "The list depends on the whole history of registrations and on shared prefixes in the broker's tree; tests register a handful of elements once.", "anchors": ["src/rbus/rbus.c:rbus_discoverComponentDataElements", "src/core/rbuscore.c:rbus_discoverObjectElements", "src/rtmessage/rtrouted.c:rtRouted_OnMessageDiscoverObjectElements", "src/rtmessage/rtRoutingTree.c:rtRoutingTree_GetRouteTopics"]}
{"id": "C73", "title": "The list of components is that of the open ones", "statement": "The list of registered components has the name of every open component once per registration, oldest first, and no internal name.", "quantifier": "All histories of registrations, withdrawals and disconnections of any clients.", "why_tests_cant": "Needs arbitrary interleavings of components coming and going.", "anchors": ["src/core/rbuscore.c:rbus_discoverRegisteredComponents", "src/rtmessage/rtrouted.c:rtRouted_OnMessageDiscoverRegisteredComponents"]}
{"id": "C74", "title": "Wildcard discovery finds every component below a path, once", "statement": "The destinations of a partial path or wildcard query are one address for each component that has an element below the path, none for any other component, and a request sent to an address reaches that component.", "quantifier": "All histories of registrations, withdrawals and disconnections of any clients, all query paths.", "why_tests_cant": "The broker keeps a route list at each inner node; whether it stays right depends on the order of registrations and withdrawals under shared prefixes.", "anchors": ["src/core/rbuscore.c:rbus_discoverWildcardDestinations", "src/rtmessage/rtrouted.c:rtRouted_OnMessageDiscoverWildcardDestinations", "src/rtmessage/rtRoutingTree.c:rtRoutingTree_ResolvePartialPath"]}
{"id": "C75", "title": "A provider polls exactly the properties its subscribers wait for", "statement": "The provider side library polls for changes every property that some auto-publishing subscription without an interval targets, and never polls one twice, in whatever order subscriptions come and go, rows are added and removed and listeners disconnect. As long as no row is removed it polls nothing else, and every interval timer belongs to one live interval subscription, to one of the properties it stands for, with at most one timer per subscription; an interval subscription accepted for a readable property has its timer. (Removing rows breaks this: the other rows of a wildcard subscription stay polled without subscribers, then removed elements stay in the poll list, and timers of ended subscriptions go on; an interval subscription to an empty table never has a timer.)", "quantifier": "all element trees, subscription caches, handler answers and sequences of subscribe, unsubscribe, row, registration and disconnect operations", "why_tests_cant": "The poll list is shared by all subscriptions through a per-element link count; a missed or a second entry shows only for certain interleavings of wildcard subscriptions, row additions and removals.", "anchors": ["src/rbus/rbus.c: subscribeHandlerImpl, registerTableRow, unregisterTableRow", "src/rbus/rbus_valuechange.c: rbusValueChange_AddPropertyNode, rbusValueChange_RemovePropertyNode", "src/rbus/rbus_intervalsubscription.c: rbusInterval_AddSubscriptionRecord, rbusInterval_RemoveSubscriptionRecord"]}
{"id": "C76", "title": "A client reads exactly the messages sent to it, however the stream is cut up", "statement": "For any sequence of messages written to a client's socket, empty payloads included, the reader thread hands on exactly these messages in order, whatever sizes recv returns and however often it is interrupted. If the connection breaks after any number of bytes, the messages handed on are an initial segment of those written, and include every message that came in whole. The reader does not leave its memory.", "quantifier": "all message sequences with well-formed headers, all sequences of recv results, all cut-off points, both states of the other end", "why_tests_cant": "Tests see the chunk sizes the kernel happens to return; a header split after its third byte or a break in the middle of a payload occurs rarely and not on demand.", "anchors": ["src/rtmessage/rtConnection.c: rtConnection_Read, rtConnection_ReadUntil, rtConnection_ReaderThread"]}
{"id": "C77", "title": "A send puts one copy of the message on the stream or none", "statement": "A call that sends a message and reports success has put exactly one well-formed copy of the message on the stream: the given topic, reply topic, flags, sequence number and payload. A call that reports an error has put nothing there. Up to three failures are retried, a lost connection is reported at once.", "quantifier": "all messages with topics of up to 255 bytes, all sequences of sendmsg results", "why_tests_cant": "Short writes and transient errors of sendmsg do not occur on an idle test machine.", "anchors": ["src/rtmessage/rtConnection.c: rtConnection_SendInternal"]}
{"id": "C78", "title": "From program to program: every client gets its messages, in order and unchanged", "statement": "After any consistent history of registrations, for any sequence of sends of one program and however the two streams are cut up, every client reads exactly those of the successfully sent messages that are for it, in the order of the calls, unchanged apart from the control data, which is the number of its own subscription; an unanswerable request comes back to its sender as undeliverable.", "quantifier": "all consistent registration histories, all sequences of messages, all results of sendmsg and chunk sizes on both connections, every client", "why_tests_cant": "An end-to-end test covers one history, one message sequence and one timing.", "anchors": ["src/rtmessage/rtConnection.c: rtConnection_SendInternal, rtConnection_Read", "src/rtmessage/rtrouted.c: rtConnectedClient_Read, rtRouter_DispatchMessageFromClient, rtRouted_ForwardMessage"]}
{"id": "C79", "title": "The rows shown for a table are exactly its rows, in order", "statement": "After any history of registrations, row additions and removals by the provider and row requests of consumers, rbusTable_getRowNames on a table returns exactly the rows added and not removed since the table was registered, in the order they were added, each with its number, its alias and the name its elements are found under. For a name of nothing, or of something that is no table, it returns an error.", "quantifier": "all data models without table get handlers, all histories of such calls, all tables", "why_tests_cant": "The order and completeness of the list depend on the whole history of row operations, which tests fix to one or two rows.", "anchors": ["src/rbus/rbus.c:rbusTable_getRowNames", "src/rbus/rbus.c:_get_parameter_names_handler", "src/rbus/rbus_element.c:instantiateTableRow", "src/rbus/rbus_element.c:deleteTableRow"]}
{"id": "C80", "title": "Element information lists every element of the asked depth once", "statement": "rbusElementInfo_get on a path returns, component after component, the element at the path and everything below it down to the depth asked for (for a negative depth exactly what is that many levels down), each once, parents before children and siblings in the order of the data model, with its full name, its type and access bits that say which handlers it has. Depths beyond 16 are refused. The returned code tells whether all components answered.", "quantifier": "all data models, paths, depths and lists of components, and every failure of the requests to them", "why_tests_cant": "Trees and depths are unbounded, and tables, rows, row templates and several components combine.", "anchors": ["src/rbus/rbus.c:rbusElementInfo_get", "src/rbus/rbus.c:_get_parameter_names_recurse", "src/rbus/rbus.c:_get_parameter_names_handler"]}
{"id": "C81", "title": "Method calls deliver parameters and results", "statement": "A method call reaches the handler registered for that method exactly once, with the method's name and the caller's in parameters (an empty object if there were none). The caller gets the handler's code and out parameters; if the handler failed without saying why, error_code and error_string are added and everything else is left as it was. If the method or its row does not exist, or it has no handler, no handler runs and the caller gets an error code with error_code and error_string. A handler that answers later is waited for; without an answer the call ends in a timeout. An asynchronous call gives its callback exactly once what the synchronous call returns.", "quantifier": "all orderly histories of registrations and row additions and removals, all plain method names, all in and out parameters that can be sent, all handlers and return codes, all bus errors", "why_tests_cant": "Tests call a few methods with a few parameters; no test checks that arbitrary nested parameters arrive, that every failing path fills in the error parameters, or that no path calls a handler twice", "anchors": ["src/rbus/rbus.c:_method_callback_handler", "src/rbus/rbus.c:rbusMethod_InvokeInternal", "src/rbus/rbus.c:rbusMethod_InvokeAsync", "src/rbus/rbus.c:rbusMethod_SendAsyncResponse", "src/rbus/rbus_object.c:rbusObject_SetPropertyValue"]}
{"id": "C82", "title": "Reading a parameter gives what its handler returned", "statement": "A read of one existing parameter that can be read calls the get handler of exactly that parameter once, with the name as the caller wrote it and the caller's name, and gives the caller the handler's code and the value with its type; a handler that answers with another name makes the read fail with an invalid-response error. A missing parameter and one that cannot be read give their own error codes without a handler being called; names of events and methods and names of several parameters are refused before any request is sent; a bus error never gives success or a value. A query for several parameters gives exactly the provider's list, in its order. A typed read never gives a value of another type.", "quantifier": "all histories of registrations and row additions and removals, all plain names, all callers, all get handlers with codes in the enumeration and values that can be sent, all bus errors", "why_tests_cant": "Tests read a few parameters of a sample provider; none checks that every failing path leaves no value, or every kind of value", "anchors": ["src/rbus/rbus.c:rbus_get", "src/rbus/rbus.c:_get_callback_handler", "src/rbus/rbus.c:_get_single_dml_handler", "src/rbus/rbus.c:_getExt_response_parser", "src/rbus/rbus.c:rbus_getByType"]}
{"id": "C83", "title": "Setting a parameter runs its set handler once with what was given", "statement": "A set of one existing writable parameter calls the set handler of exactly that parameter once, with the name, the value and its type, the caller's name, the session and the commit flag (commit when no options are given), and the caller gets the handler's code. A missing parameter and one without a set handler give their own error codes without a handler being called; names of several parameters and values without a type are refused before any request is sent; a bus error is never reported as success.", "quantifier": "all histories of registrations and row additions and removals, all plain names, all values that can be sent, all options with 32-bit session numbers, all set handlers with codes in the enumeration, all bus errors", "why_tests_cant": "Tests set a few values of a sample provider, mostly without options", "anchors": ["src/rbus/rbus.c:rbus_set", "src/rbus/rbus.c:_set_callback_handler", "src/rbus/rbus.c:rbus_setInt"]}
{"id": "C84", "title": "Parameters behave as typed registers", "statement": "For a provider whose handlers keep the values they are given, any sequence of reads and sets by any components on any of its parameters behaves as a set of independent registers: every call succeeds and each read gives the value of the last set of that very parameter, with the same type and content.", "quantifier": "all sequences of reads and sets, all components, all data models with and without table rows, all complete values of every type", "why_tests_cant": "A test performs a handful of set and get pairs; it cannot cover all interleavings of components, parameters and value types", "anchors": ["src/rbus/rbus.c:rbus_get", "src/rbus/rbus.c:rbus_set", "src/rbus/rbus.c:_get_callback_handler", "src/rbus/rbus.c:_set_callback_handler", "src/rbus/rbus_value.c:rbusValue_SetFromString"]}
{"id": "C85", "title": "Message listeners get their messages until they are removed", "statement": "After any history of adding and removing listeners on the bus connection and on private connections, of private connections coming and going and of removing all listeners, each message reaches the handler of the listener added for its id on that connection and not removed since, and no other handler; a request is acknowledged on the connection it came from; each call returns the code, and each query the answer, that the list of present listeners gives; no freed memory is used.", "quantifier": "all histories of calls, messages and connection changes, all expressions, ids and handlers", "why_tests_cant": "A test adds one listener, sends to it and removes it; a wrong pairing of context and slot only shows when several listeners share a name or an id, and then as memory corruption later.", "anchors": ["src/rbus/rbus_message.c:rbusMessage_AddListener", "src/rbus/rbus_message.c:rbusMessage_RemoveListener", "src/rbus/rbus_message.c:rbusMessage_AddPrivateListener", "src/rbus/rbus_message.c:rbusMessage_RemovePrivateListener", "src/rbus/rbus_message.c:rbusMessage_RemoveAllListeners", "src/rbus/rbus_message.c:rbusMessage_HasListener", "src/rbus/rbus_message.c:rtMessage_CallbackHandler"]}
{"id": "C86", "title": "Unregistering elements withdraws exactly the listed elements", "statement": "After a component has unregistered a list of elements the call reports success, a message to a listed element is delivered to nobody (a request for it is told so), and every other message is delivered as before; the component's own handlers for the listed elements are no longer called.", "quantifier": "all histories of registrations by all components, all lists of elements, all messages", "why_tests_cant": "A test unregisters elements of a single component and checks that they are gone; what else went with them shows only with the registrations of other components around.", "anchors": ["src/rbus/rbus.c:rbus_unregDataElements", "src/core/rbuscore.c:rbus_removeElement", "src/rtmessage/rtConnection.c:rtConnection_RemoveAlias", "src/rtmessage/rtrouted.c:rtRouted_OnMessageUnsubscribe"]}
{"id": "C87", "title": "Adding or removing a row over the bus runs the table's handler once and changes exactly that row", "statement": "A request of another component to add a row calls the add handler of the table exactly once, with the table's name and the alias, returns its code and its number, and on success the provider has exactly one more row, a copy of the table's template under that number with that alias; a request to remove a row calls the remove handler once with the row's name, returns its code, and on success exactly that row and what is below it are gone. A missing table or row, a table without handler, or a request that does not arrive is reported as an error and changes nothing.", "quantifier": "all element trees, tables and rows at any depth, aliases, handlers and handler codes, all fates of the request", "why_tests_cant": "A test adds a row to one table; that nothing else changes, for every tree and every handler answer, is a statement about all trees.", "anchors": ["src/rbus/rbus.c:rbusTable_addRow", "src/rbus/rbus.c:rbusTable_removeRow", "src/rbus/rbus.c:_table_add_row_callback_handler", "src/rbus/rbus.c:_table_remove_row_callback_handler"]}
{"id": "C88", "title": "The rows shown are those consumers were told of", "statement": "After any sequence of requests of any consumers to add and remove rows, the rows a consumer is shown for a table are exactly the ones whose adding was reported as a success and whose removal was not reported as a success since, in the order they were added, each with its alias.", "quantifier": "all sequences of requests, each answered by a program of its own or lost on the way", "why_tests_cant": "The agreement between what was reported and what is shown has to hold after every sequence, including refusals and lost requests.", "anchors": ["src/rbus/rbus.c:rbusTable_addRow", "src/rbus/rbus.c:rbusTable_removeRow", "src/rbus/rbus.c:rbusTable_getRowNames", "src/rbus/rbus_element.c:instantiateTableRow"]}
{"id": "C89", "title": "Many programs sending at once while names come and go", "statement": "When any number of programs send at the same time while others register, take back names or leave, there is one order of all messages and requests, agreeing with the order of every program's own successful sends and with the order of the requests, such that every program receives exactly the messages that, at their place in this order, were for a name it had registered (or the notice that its own request had no destination), unchanged and in this order; no program's stream is damaged by how the others' bytes arrive in between.", "quantifier": "all numbers of programs, all message sequences and send outcomes, all interleavings and cuts of the byte streams, all consistent sequences of registrations", "why_tests_cant": "The interleavings of reads of several senders with registrations are without number; a test sees the ones the scheduler happens to produce.", "anchors": ["src/rtmessage/rtrouted.c:rtRouter_DispatchMessageFromClient", "src/rtmessage/rtrouted.c:rtConnectedClient_Read", "src/rtmessage/rtrouted.c:main", "src/rtmessage/rtConnection.c:rtConnection_SendInternal"]}
{"id": "C90", "title": "Published events reach exactly the subscribers", "statement": "After any history of subscribing, unsubscribing, publishing and ending processes, publishing an event calls, once each and in the order in which they subscribed, exactly the handlers of the subscriptions to that event that succeeded and were not withdrawn (by an unsubscribe or the end of their process) and whose message is not lost, each with the event as published; a second subscribe for the same event, filter, interval and duration is refused, an unsubscribe succeeds exactly when there is such a subscription, and publishing reports whether its subscribers were told.", "quantifier": "all numbers of processes and components, all histories, events, filters and names, and all answers of handlers", "why_tests_cant": "The claim is about all histories of all subscribers together and goes through two registries that must stay in step over messages; tests look at single exchanges.", "anchors": ["src/rbus/rbus.c:rbusEvent_Publish", "src/rbus/rbus.c:rbusEvent_SubscribeWithRetries", "src/rbus/rbus.c:_subscribe_callback_handler", "src/rbus/rbus.c:_master_event_callback_handler", "src/rbus/rbus.c:rbusEvent_UnsubscribeEx", "src/core/rbuscore.c:send_subscription_request", "src/core/rbuscore.c:master_event_callback", "src/core/rbuscore.c:rbus_publishSubscriberEvent"]}
{"id": "C91", "title": "The initial value of a subscription", "statement": "A successful subscribe that asks for an initial value calls the subscriber's handler before it returns exactly once, with the event name, the type for initial values and the value the provider's get handler returned under the name initialValue; not at all if there is no get handler, if no initial value was asked for or if the subscribe fails; an error of the get handler only means that there is no initial value.", "quantifier": "all states of both sides, names, filters, values and handler results", "why_tests_cant": "The initial value travels inside the answer in front of the subscription number, with a layout that depends on what the provider's handler did; tests cover the case in which it succeeds.", "anchors": ["src/rbus/rbus.c:_subscribe_callback_handler", "src/rbus/rbus.c:rbusEvent_SubscribeWithRetries", "src/rbus/rbus.c:_master_event_callback_handler"]}
{"id": "C92", "title": "Requests over direct connections", "statement": "A request for a parameter sent over a direct connection that was opened for it runs the handler of the component the parameter belongs to exactly once, with the parameter's name, the method and the message that was sent, and the caller gets the response that handler left, on the same connection and with the request's sequence number, exactly as if the request had gone by the broker; a request for a parameter that no consumer has a direct connection for runs no handler and is answered with an error.", "quantifier": "all histories of any number of consumers opening, connecting, closing, failing and ending and of the provider's threads ending, all names, messages and handlers", "why_tests_cant": "Who serves a request depends on a list that connections of all consumers share and that several threads of the provider change; a test has one consumer and one order.", "anchors": ["src/core/rbuscore.c:_onDirectMessage", "src/core/rbuscore.c:rbuscore_startPrivateListener", "src/core/rbuscore.c:rbuscore_updatePrivateListener", "src/core/rbuscore.c:rbuscore_PrivateThreadFunc", "src/core/rbuscore.c:rbuscore_createPrivateConnection", "src/core/rbuscore.c:rbuscore_closePrivateConnection", "src/rbus/rbus.c:rbus_openDirect", "src/rtmessage/rtrouteBase.c:_rtdirect_OnMessage"]}
{"id": "C93", "title": "Events for directly connected consumers", "statement": "An event for a consumer that has a direct connection for it is written to that connection, with the consumer's inbox as its topic and the event's bytes, whatever other consumers do in the meantime; an event for a consumer that has none goes by the broker.", "quantifier": "all histories of any number of consumers and of the provider's threads, all interleavings with a publisher, all names and payloads", "why_tests_cant": "The publisher looks a connection up and uses it in two steps; which consumers come, go or are still connecting in between is up to the schedule.", "anchors": ["src/core/rbuscore.c:rbus_publishSubscriberEvent", "src/core/rbuscore.c:rbuscore_FindServerPrivateClient", "src/core/rbuscore.c:rbuscore_updatePrivateListener", "src/core/rbuscore.c:_onDirectMessage", "src/rtmessage/rtrouteBase.c:rtRouteDirect_SendMessage"]}
{"id": "C94", "title": "Lifetime of values, properties, objects and filters", "statement": "A program that creates, combines, changes, retains and releases values, properties, objects and filters, and releases only references it holds, never reaches freed memory: whatever it can get to from the references it holds is still there. Nothing stays behind either: what it can no longer get to has been freed, and once it has released all its references no memory is left.", "quantifier": "all programs: all sequences of the Init, Set, Append, Copy, Retain and Release functions of any length, all shapes of lists, trees and sharing between them, all names and contents", "why_tests_cant": "A leak or a use after free depends on which of many containers share a value when one of them lets go of it; tests release a handful of shapes.", "anchors": ["src/rtmessage/rtRetainable.c:rtRetainable_releaseInternal", "src/rbus/rbus_value.c:rbusValue_FreeInternal", "src/rbus/rbus_value.c:rbusValue_SetBufferData", "src/rbus/rbus_value.c:rbusValue_Copy", "src/rbus/rbus_property.c:rbusProperty_Destroy", "src/rbus/rbus_property.c:rbusProperty_SetValue", "src/rbus/rbus_object.c:rbusObject_Destroy", "src/rbus/rbus_object.c:rbusObject_SetProperty", "src/rbus/rbus_filter.c:rbusFilter_Destroy"]}
{"id": "C95", "title": "What the setters change", "statement": "Each setter changes the one thing it is about and nothing else the program can see through other handles: a property set on an object takes the place of the first one of its name, with the properties linked to it, or comes last; a value set by name goes to the first property of that name or to a new last one; an appended property comes last; everything else holds what it held.", "quantifier": "all programs as in C94, all states they can reach, all calls", "why_tests_cant": "Handles share parts, so a change through one may show through another; the places to look at grow with the program.", "anchors": ["src/rbus/rbus_object.c:rbusObject_SetProperty", "src/rbus/rbus_object.c:rbusObject_SetPropertyValue", "src/rbus/rbus_property.c:rbusProperty_Append", "src/rbus/rbus_property.c:rbusProperty_SetNext", "src/rbus/rbus_value.c:rbusValue_Copy"]}
{"id": "C96", "title": "Fields of a text message", "statement": "After any calls that set or append fields of a new text message, reading a field by name gives the value it was last given, in its type: strings, whole numbers, fractions, truth values, binary data, messages within messages, lists in the order they were appended, the send topic. Names not set are reported missing, reading in another type or outside a list is refused, and no call goes outside its memory.", "quantifier": "all sequences of Set and Add calls of any length, all names, all values, all nestings, all indices and buffer sizes", "why_tests_cant": "Which field is found depends on all names set before, on letter case and on the order of calls; tests set each field once.", "anchors": ["src/rtmessage/rtMessage.c:rtMessage_SetString", "src/rtmessage/rtMessage.c:rtMessage_GetString", "src/rtmessage/rtMessage.c:rtMessage_GetStringValue", "src/rtmessage/rtMessage.c:rtMessage_SetSendTopic", "src/rtmessage/rtMessage.c:rtMessage_AddString", "src/rtmessage/rtMessage.c:rtMessage_AddMessage", "src/rtmessage/rtMessage.c:rtMessage_GetMessageItem", "src/rtmessage/rtMessage.c:rtMessage_GetBinaryData"]}
{"id": "C97", "title": "Renewing a broken connection", "statement": "When threads of a program find the connection to the broker broken, one of them renews it, once, the others wait for it and go on; afterwards everything the program listens to is known to the broker on the new connection, exactly as if the program had just connected and added it. If the broker does not come back within the tries the call says so and the next failure tries again. No thread waits for good.", "quantifier": "all interleavings of any number of threads finding failures at any time, all outcomes of every system call, all tables of listeners and changes to them meanwhile, all numbers of tries", "why_tests_cant": "The outcome depends on where each thread is when the broker dies, and on it dying again during the renewal; tests restart the broker once while the program is idle.", "anchors": ["src/rtmessage/rtConnection.c:rtConnection_ConnectAndRegister", "src/rtmessage/rtConnection.c:rtConnection_AddListenerWithId", "src/rtmessage/rtConnection.c:rtConnection_AddAlias", "src/rtmessage/rtConnection.c:rtConnection_SendInternal"]}
{"id": "C98", "title": "Texts naming sockets", "statement": "The text naming the broker's socket is understood: unix:// with a path, tcp:// with four numbers or the name of an interface and a port give the socket address they name, writing the address gives the text back, different texts give different addresses, an address that was read can be connected to, anything else is refused, and no text makes the reader leave its memory.", "quantifier": "all texts, all paths, all four numbers and ports, all interface tables", "why_tests_cant": "Which texts are cut, taken for something else or overrun a buffer is decided by lengths and single characters; tests use two fixed addresses.", "anchors": ["src/rtmessage/rtSocket.c:rtSocketStorage_FromString", "src/rtmessage/rtSocket.c:rtSocketStorage_ParsePort", "src/rtmessage/rtSocket.c:rtSocketStorage_ToString", "src/rtmessage/rtSocket.c:rtSocketStorage_GetLength", "src/rtmessage/rtSocket.c:rtSocket_IsNumeric", "src/rtmessage/rtSocket.c:rtSocket_InterfaceNameToAddress"]}
{"id": "C99", "title": "How long calls wait", "statement": "A call for which no timeout is given waits for the time last configured for its kind of call, for the default of its kind when 0 was configured last, for the number in the environment or the default when nothing was configured, and for the seconds in the file of the program and the kind when there is one; kinds of calls do not influence each other, a timeout given with a call is used as it is, and no file makes reading the timeout go wrong.", "quantifier": "all sequences of configuration calls, all environments, all program names, all file contents, all calls", "why_tests_cant": "Timeouts only show when nobody answers; tests would have to wait for every combination of configuration, environment and file.", "anchors": ["src/rbus/rbus_handle.c:rbusHandle_TimeoutValuesInit", "src/rbus/rbus_handle.c:rbusHandle_ConfigGetTimeout", "src/rbus/rbus_handle.c:rbusHandle_FetchGetTimeout", "src/rbus/rbus_handle.c:rbusHandle_FetchSetMultiTimeout", "src/rbus/rbus_handle.c:rbusHandle_FetchSubscribeTimeout", "src/rbus/rbus.c:rbusHandle_ConfigTimeoutValues", "src/rbus/rbus.c:rbusEvent_SubscribeWithRetries"]}
{"id": "C100", "title": "Raw data subscriptions and direct connections", "statement": "Whatever is subscribed, withdrawn, connected directly, disconnected and published, and however the provider answers, every raw data subscription call returns what the list of subscriptions in force says; every published event runs the handler subscribed to it exactly once and no other, whether it arrives over the broker or over a direct connection; and no freed memory is used.", "quantifier": "all histories of raw data subscriptions, withdrawals, direct connections, disconnections and publications, all answers of the provider", "why_tests_cant": "Tests follow one order of opening, subscribing and closing; the listeners move between two connections at each of these steps, and a stale one shows only when the next event arrives.", "anchors": ["src/rbus/rbus.c:rbusEvent_SubscribeRawData", "src/rbus/rbus.c:rbusEvent_UnsubscribeRawData", "src/rbus/rbus.c:_rbus_event_unsubscribe", "src/rbus/rbus.c:_subscribe_rawdata_handler", "src/rbus/rbus.c:rbusOpenDirect_SubAdd", "src/rbus/rbus.c:rbusCloseDirect_SubRemove", "src/rbus/rbus.c:rbus_openDirect", "src/rbus/rbus.c:rbus_closeDirect", "src/rbus/rbus.c:rbusEvent_PublishRawData"]}
{"id": "C101", "title": "The trace context travels with requests", "statement": "A handler reads exactly the trace context its caller had when it sent the request, through any number of requests made by handlers; what a handler does with its context never changes the caller's; handlers of events begin with none; and reading never gives more than the array has room for.", "quantifier": "all trees of requests and events over all threads, all contexts, all array sizes, all payloads", "why_tests_cant": "The context is thread-local state that survives between requests; a stale or lost one shows only for particular orders of requests, answers and events on one thread.", "anchors": ["src/core/rbuscore.c:rbus_setOpenTelemetryContext", "src/core/rbuscore.c:rbus_getOpenTelemetryContext", "src/core/rbuscore.c:rbus_clearOpenTelemetryContext", "src/core/rbuscore.c:dispatch_method_call", "src/core/rbuscore.c:rbus_invokeRemoteMethod2", "src/rbus/rbus.c:rbusHandle_GetTraceContextAsString", "src/rbus/rbus.c:rbusMethod_InvokeAsync"]}
{"id": "C102", "title": "Values in the legacy text format are read as what they mean", "statement": "A value that a legacy component sends as a text with a legacy type code, in the answer to a read, in a list of values or in a set request, reaches the reader as the value the text means in that type, next to values in the binary format and whichever of the two success codes comes with it; a text that means nothing is an error.", "quantifier": "all type codes, texts, names, lists that mix both formats and success codes, whatever follows in the message", "why_tests_cant": "The texts and the mixes of both formats are unbounded, and a text that cannot be read shows only as an untyped value somewhere else.", "anchors": ["src/rbus/rbus.c:_parse_rbusData_to_value", "src/rbus/rbus.c:rbusValue_initFromMessage", "src/rbus/rbus.c:rbus_get", "src/rbus/rbus.c:_getExt_response_parser", "src/rbus/rbus.c:_set_callback_handler", "src/rbus/rbus_value.c:rbusValue_SetFromString"]}
{"id": "C103", "title": "Whoever relies on another program is told when it goes", "statement": "Each time a program's connection to the broker ends, however it ends, every other connected program that has registered elements or holds a direct connection has its disconnect handler called exactly once with the inbox of the one that went, in the order of the ends; no handler is called for anything else.", "quantifier": "all histories of programs that connect, register names, open and close direct connections, close their handle, crash and start again", "why_tests_cant": "Crashes at every point of every interleaving of several processes with the broker cannot be staged, and a handler that is never installed shows only as subscriptions that outlive their consumer.", "anchors": ["src/rtmessage/rtrouted.c:rtRouted_SendAdvisoryMessage", "src/rtmessage/rtrouted.c:rtRouted_OnMessageSubscribe", "src/rtmessage/rtrouted.c:rtConnectedClient_Destroy", "src/core/rbuscore.c:rtrouted_advisory_callback", "src/core/rbuscore.c:rbus_registerClientDisconnectHandler", "src/core/rbuscore.c:rbus_unregisterClientDisconnectHandler", "src/rbus/rbus.c:rbus_openDirect", "src/rbus/rbus.c:rbus_closeDirect"]}
{"id": "C104", "title": "No call leaves a mutex locked", "statement": "Every call of the API, and every function that the library's own threads run, ends, on every path including all failures, with exactly those mutexes locked that its thread had locked before, and never waits for a mutex that its own thread has locked; so too when the handlers it runs make calls of their own.", "quantifier": "all calls, all paths through them, all sequences of calls, all calls made from within handlers", "why_tests_cant": "A forgotten unlock sits on an early return that needs a failing system call or a lost broker; the program then hangs in some later call in another thread.", "anchors": ["src/core/rbuscore.c:rbus_closeBrokerConnection", "src/core/rbuscore.c:rbus_registerMethod", "src/core/rbuscore.c:rbus_publishSubscriberEvent", "src/rbus/rbus.c:rbusEvent_Unsubscribe", "src/rbus/rbus.c:_master_event_callback_handler", "src/rbus/rbus.c:subscribeHandlerImpl", "src/rbus/rbus_handle.c:rbusHandleList_ClientDisconnect", "src/rbus/rbus_message.c:rbusMessage_RemoveAllListeners"]}
{"id": "C105", "title": "Shared tables are only touched under their mutex", "statement": "While a call runs, the tables that threads share (objects, direct connections, handles, subscriptions of both sides, watched parameters, interval records, listeners, the retry queue and the tree of elements) are only read and written by a thread that has the table's mutex; no mutex is taken twice by one thread or given back by a thread that has it not.", "quantifier": "all functions that touch a shared table, all paths, every moment of an execution", "why_tests_cant": "A table touched without its mutex goes wrong only if another thread changes it in the same instant.", "anchors": ["src/core/rbuscore.c:perform_cleanup", "src/core/rbuscore.c:rbuscore_FindServerPrivateClient", "src/core/rbuscore.c:rbus_registerEvent", "src/core/rbuscore.c:rbus_registerSubscribeHandler", "src/rbus/rbus.c:rbusEvent_UnsubscribeExRawData", "src/rbus/rbus.c:rbusOpenDirect_SubAdd", "src/rbus/rbus_subscriptions.c:rbusSubscriptions_handleClientDisconnect", "src/rbus/rbus_subscriptions.c:rbusSubscriptions_resubscribeElementCache", "src/rbus/rbus_asyncsubscribe.c:rbusAsyncSubscribeRetrier_SendSubscriptionRequests", "src/rbus/rbus_intervalsubscription.c:rbusInterval_AddSubscriptionRecord"]}
{"id": "C106", "title": "A data model name leads to the object it names", "statement": "In the data model library a name leads to an object exactly if it consists of the parts of the object's name with an item number after each list on the way; a get or set of a property of an instance is sent to the provider of that instance, with the whole value, and a name that leads nowhere touches no provider.", "quantifier": "all databases with distinct names, all names, all values", "why_tests_cant": "Lists within lists and values with dots, equals signs and braces multiply, and the loops over them have no bound.", "anchors": ["utils/dataProvider/dmProviderDatabase.cpp:dmProviderDatabase::getProviderByObjectName", "utils/dataProvider/dmProviderDatabase.cpp:dmProviderDatabase::createQuery", "utils/dataProvider/dmProviderDatabase.cpp:dmQueryImpl::setQueryString", "utils/dataProvider/dmUtility.h:dmUtility::trimSetProperty"]}
{"id": "C107", "title": "Data model gets and sets call the provider for what was written, and report it", "statement": "A get calls the getter of each property asked for once, in the order of the model, and reports its name and value; a set calls the setter of each property that can be written, once, in the order written, with the value as written, several within one transaction, and reports each; a property that cannot be written is never set; a failure is reported as one.", "quantifier": "all databases, providers, names, values and lists of settings", "why_tests_cant": "Every combination of properties, handlers and texts, and of lost and late answers.", "anchors": ["utils/dataProvider/dmProvider.cpp:dmProvider::doGet", "utils/dataProvider/dmProvider.cpp:dmProvider::doSet", "utils/dataProvider/dmProviderHost.cpp:dmProviderHostImpl::decodeGetRequest", "utils/dataProvider/dmProviderHost.cpp:dmProviderHostImpl::decodeSetRequest", "utils/dataProvider/dmProviderHost.cpp:dmProviderHostImpl::encodeResult", "utils/dataProvider/dmProviderDatabase.cpp:dmQueryImpl::makeRequest", "utils/dataProvider/dmUtility.h:dmUtility::parseMultisetValue", "utils/dataProvider/dmValue.cpp:dmValue::toString"]}
{"id": "C108", "title": "A data model get of a list or of everything below asks for each instance once", "statement": "In the data model client a get of an object asks for its properties; a get of a list asks for each of its items once, in the order in which their ids are listed; a get of everything below asks once for each object and each item of each list below the name and for nothing else; what is shown is what was answered; the get ends and succeeds if everything was got.", "quantifier": "all databases with distinct names, all names, all numbers and ids of items, all answers", "why_tests_cant": "Trees of lists within lists have no bound, and the answers that steer the walk come from other processes.", "anchors": ["utils/dataProvider/dmClient.cpp:dmClientImpl::runGet", "utils/dataProvider/dmClient.cpp:dmClientImpl::runOneQuery", "utils/dataProvider/dmClient.cpp:getResultValue", "utils/dataProvider/dmProviderDatabase.cpp:dmProviderDatabase::buildProviderTree"]}
{"id": "C109", "title": "A typed read gives what was last written, or says why not", "statement": "Whatever was written to a value before, a checked read of a type gives what was last written if it was written with that type, and otherwise an error that leaves the variable alone; texts and bytes read back with their length; an object gives for each name what was last written under it, and says so if there is nothing under it; reading a NULL value or a value of another type is an error, not a fault.", "quantifier": "all histories of typed writes of all types and contents, all typed reads, all names", "why_tests_cant": "The contents of the union after every sequence of writes of differently sized types have no bound, and a wrong read can look right.", "anchors": ["src/rbus/rbus_value.c:rbusValue_GetStringEx", "src/rbus/rbus_value.c:rbusValue_GetBytesEx", "src/rbus/rbus_value.c:rbusValue_SetBufferData", "src/rbus/rbus_value.c:rbusValue_FreeInternal", "src/rbus/rbus_value.c:DEFINE_VALUE_TYPE_FUNCS", "src/rbus/rbus_object.c:rbusObject_SetPropertyValue", "src/rbus/rbus_object.c:DEFINE_OBJECT_PROPERTY_VALUE"]}
{"id": "C110", "title": "Element information is one list of all that was answered, and giving it back gives all back", "statement": "Whatever each of several providers answers to a request for element information, building the list touches no memory that is not held; following next from the first element gives the names of every provider that answered successfully, in order, each with its provider, and ends; and freeing the list frees each text and the list once, nothing else, and leaves nothing held.", "quantifier": "all numbers of providers, all answers (none, failing, empty, any number of names), all memory in use before", "why_tests_cant": "The list is grown by moving it as each provider answers, so every link must be right after every move; a stale link or a missed text shows only for some numbers of answers and only under a memory checker.", "anchors": ["src/rbus/rbus.c:rbusElementInfo_get", "src/rbus/rbus.c:rbusElementInfo_free"]}
{"id": "C111", "title": "The list of rows reads as it was answered, and giving it back gives all back", "statement": "Whatever rows a table's provider answers with, following next from the first gives each row's number, name and alias (none if it is empty) in order and ends, and there is a list just when there is a row; freeing the list frees each text and the list once, nothing else, and leaves nothing held.", "quantifier": "all numbers of rows, all names and aliases, empty ones among them, all memory in use before", "why_tests_cant": "A missed or doubled free or a wrong last link shows only for some lists and only under a memory checker.", "anchors": ["src/rbus/rbus.c:rbusTable_getRowNames", "src/rbus/rbus.c:rbusTable_freeRowNames"]}
{"id": "C112", "title": "A message that is dropped for want of memory takes its own bytes with it and no others", "statement": "When the router has no memory for a message, however its bytes arrive, are split or the read is interrupted, exactly the bytes of that message are taken, the next message is read from its first byte, a sender that closes midway is noticed, and the router goes on to serve others.", "quantifier": "all messages, all bytes behind them, all ways a read can split, be interrupted or fail", "why_tests_cant": "Running out of memory for one message, with every split of what arrives, cannot be arranged by tests; one byte too many or too few garbles every later message of the sender.", "anchors": ["src/rtmessage/rtConnection.c:_rtConnection_ReadAndDropBytes", "src/rtmessage/rtrouted.c:rtConnectedClient_Read", "src/rtmessage/rtrouteBase.c:rtConnectedClient_Read"]}
