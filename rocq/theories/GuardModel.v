(** Model of what each function does with the mutexes of a process: src/core/rbuscore.c,
    src/rbus/rbus.c, rbus_handle.c, rbus_message.c, rbus_asyncsubscribe.c, rbus_valuechange.c,
    rbus_intervalsubscription.c and rbus_element.c.  A function is its control flow with the mutexes
    it takes and gives back and the places where it touches data that a mutex guards.
    Simplifications: conditions are choices, so a function may do more here than in the code (where
    two conditions go together the branches are written out); there is one handle and one element; the
    mutexes of the message layer below (rtConnection.c) are left out; whether another thread has a
    mutex is left to C40 and C64; branches for a null entry in a list of rbus's own are left out (no null is ever put in). *)
From Verif Require Import Common.
Local Open Scope list_scope.

(** [Core], [Serv], [Cli]: g_mutex, g_directServMutex, g_directCliMutex (rbuscore.c:325-327); [Rbus]:
    gMutex (rbus.c:124); [Esubs], [Subs]: handle_eventSubsMutex, handle_subsMutex (rbus_handle.h:122);
    [Msg]: gMutex (rbus_message.c:46); [Queue]: mutexQueue (rbus_asyncsubscribe.c:53); [Tree]:
    element_mutex (rbus_element.c:44); [Elm]: elmMutex (rbus_element.h:35-54); [Vc]: gVC->mutex
    (rbus_valuechange.c:57-58); [Ival], [Rec]: gMutex and a record's mutex (rbus_intervalsubscription.c:46-50) *)
Inductive mutex := Core | Serv | Cli | Rbus | Esubs | Subs | Msg | Queue | Tree | Elm | Vc | Ival | Rec.
(** rbuscore.c:325-327, continued *)
Definition mutex_eq_dec : forall a b : mutex, {a = b} + {a <> b}.
Proof. decide equality. Defined.
(** the kinds of mutex of pthread.h, chosen at rbuscore.c:619, rbus_element.c:239 and elsewhere *)
Inductive kind := Checked | Plain | Recursive.
(** Checked: rbuscore.c:619-622, rbus.c:3023-3025, rbus_asyncsubscribe.c:328, rbus_element.c:71,
    rbus_valuechange.c:97, rbus_intervalsubscription.c:69; Recursive: rbus_element.c:239;
    Plain: rbus.c:124, rbus_message.c:46, rbus_intervalsubscription.c:47 *)
Definition kind_of (m : mutex) : kind :=
  match m with Rbus | Msg | Ival => Plain | Tree => Recursive | _ => Checked end.

(** control flow of C with the operations on mutexes: [Use m] touches what [m] guards, [Fn] is a call *)
Inductive stm :=
| Skip | Acq (m : mutex) | Rel (m : mutex) | Use (m : mutex) | Ret | Brk
| Seq (a b : stm) | Alt (a b : stm) | Loop (a : stm) | Fn (a : stm).
(** how control leaves a statement: at its end, by break, by return; [Stuck]: it waits for ever for a
    mutex that its own thread has; [Cut]: it is still running *)
Inductive exit := Go | Broke | Returned | Stuck | Cut.
(** a mutex taken again by the thread that has it; given back by a thread that has it not; and data
    touched without its mutex *)
Inductive fault := Again (m : mutex) | Foreign (m : mutex) | Bare (m : mutex).
(** one [m] less; no code of its own *)
Fixpoint drop (m : mutex) (h : list mutex) : list mutex :=
  match h with [] => [] | x :: h => if mutex_eq_dec x m then h else x :: drop m h end.
(** the executions of a statement by a thread that has the mutexes [h]; pthread_mutex_lock and
    pthread_mutex_unlock of pthread.h, their errors logged or ignored and not acted upon (rbuscore.c:344-371,
    rbus_handle.h:48-86, rbus.c:59-60) *)
Inductive ex : stm -> list mutex -> exit -> list mutex -> list fault -> Prop :=
| ex_cut : forall s h, ex s h Cut h []
| ex_skip : forall h, ex Skip h Go h []
| ex_acq : forall m h, ~ In m h \/ kind_of m = Recursive -> ex (Acq m) h Go (m :: h) []
| ex_again : forall m h, In m h -> kind_of m = Checked -> ex (Acq m) h Go h [Again m]
| ex_stuck : forall m h, In m h -> kind_of m = Plain -> ex (Acq m) h Stuck h [Again m]
| ex_rel : forall m h, In m h -> ex (Rel m) h Go (drop m h) []
| ex_foreign : forall m h, ~ In m h -> ex (Rel m) h Go h [Foreign m]
| ex_use : forall m h, In m h -> ex (Use m) h Go h []
| ex_bare : forall m h, ~ In m h -> ex (Use m) h Go h [Bare m]
| ex_ret : forall h, ex Ret h Returned h []
| ex_brk : forall h, ex Brk h Broke h []
| ex_seq : forall a b h h1 f1 e h2 f2, ex a h Go h1 f1 -> ex b h1 e h2 f2 -> ex (Seq a b) h e h2 (f1 ++ f2)
| ex_seq_out : forall a b h e h1 f1, ex a h e h1 f1 -> e <> Go -> ex (Seq a b) h e h1 f1
| ex_left : forall a b h e h1 f, ex a h e h1 f -> ex (Alt a b) h e h1 f
| ex_right : forall a b h e h1 f, ex b h e h1 f -> ex (Alt a b) h e h1 f
| ex_done : forall a h, ex (Loop a) h Go h []
| ex_more : forall a h h1 f1 e h2 f2, ex a h Go h1 f1 -> ex (Loop a) h1 e h2 f2 -> ex (Loop a) h e h2 (f1 ++ f2)
| ex_break : forall a h h1 f, ex a h Broke h1 f -> ex (Loop a) h Go h1 f
| ex_loop_out : forall a h e h1 f, ex a h e h1 f -> e <> Go -> e <> Broke -> ex (Loop a) h e h1 f
| ex_fn : forall a h e h1 f, ex a h e h1 f -> ex (Fn a) h (match e with Returned => Go | e => e end) h1 f.

(** statements one after the other; no code of its own *)
Fixpoint blk (l : list stm) : stm := match l with [] => Skip | [s] => s | s :: l => Seq s (blk l) end.
(** an if without else; no code of its own *)
Definition opt (l : list stm) : stm := Alt (blk l) Skip.
(** a function; no code of its own *)
Definition fn (l : list stm) : stm := Fn (blk l).
(** a loop; no code of its own *)
Definition loop (l : list stm) : stm := Loop (blk l).
(** an if with else; no code of its own *)
Definition alt (a b : list stm) : stm := Alt (blk a) (blk b).

(** ** rbuscore.c *)
(** rbuscore.c:2867-2890 _rbuscore_destroy_clientPrivate_connections *)
Definition destroy_private : stm := fn [Acq Cli; loop [Use Cli; loop [Use Cli]]; Rel Cli].
(** rbuscore.c:387-421 perform_cleanup *)
Definition perform_cleanup : stm :=
  fn [Acq Core; Use Core; Use Serv; destroy_private; Use Cli;
      opt [Rel Core; loop [Use Core]; Acq Core]; Use Core; Rel Core].
(** rbuscore.c:476-512 dispatch_method_call; [u]: the handler *)
Definition dispatch_method_call (u : stm) : stm :=
  fn [Acq Core; Use Core; alt [Rel Core; u] [Rel Core; u; opt [Ret]]].
(** rbuscore.c:602-659 rbus_openBrokerConnection2 *)
Definition open_broker : stm :=
  fn [opt [Ret]; Acq Core; opt [Rel Core; Ret]; opt [perform_cleanup; Rel Core; Ret]; Rel Core].
(** rbuscore.c:661-695 rbus_closeBrokerConnection, when there is a connection and when there is none (666-669) *)
Definition close_broker (connected : bool) : stm :=
  fn [Acq Core; if connected then Skip else Ret; Use Core; opt [Rel Core; Ret]; perform_cleanup; opt [Ret]; Rel Core].
(** rbuscore.c:781-843 rbus_registerObj *)
Definition register_obj : stm :=
  fn [opt [Ret]; Acq Core; Use Core; Rel Core; opt [Ret]; opt [Acq Core; Use Core; Rel Core]].
(** rbuscore.c:845-886 rbus_registerMethod *)
Definition register_method : stm := fn [opt [Ret]; Acq Core; Use Core; opt [Rel Core; Ret]; Rel Core].
(** rbuscore.c:889-917 rbus_unregisterMethod *)
Definition unregister_method : stm := fn [Acq Core; Use Core; Rel Core].
(** rbuscore.c:924-937 rbus_registerMethodTable *)
Definition register_table : stm := fn [loop [register_method; opt [Brk]]].
(** rbuscore.c:939-952 rbus_unregisterMethodTable *)
Definition unregister_table : stm := fn [loop [unregister_method; opt [Brk]]].
(** rbuscore.c:954-987 rbus_unregisterObj *)
Definition unregister_obj : stm := fn [opt [Ret]; Acq Core; Use Core; Rel Core].
(** rbuscore.c:1329-1359 install_subscription_handlers *)
Definition install_subscription_handlers : stm := fn [Use Core; opt [Ret]; register_method; opt [register_method; opt [Use Core]]].
(** rbuscore.c:1361-1414 rbus_registerEvent *)
Definition register_event : stm := fn [opt [Ret]; Acq Core; Use Core; opt [install_subscription_handlers]; Rel Core].
(** rbuscore.c:1416-1450 rbus_unregisterEvent *)
Definition unregister_event : stm := fn [Acq Core; Use Core; Rel Core].
(** rbuscore.c:1530-1561 remove_subscription_callback *)
Definition remove_subscription_callback : stm := fn [Acq Core; Use Core; Rel Core].
(** rbuscore.c:1563-1648 rbus_subscribeToEventInternal; [master]: there is a master event callback
    (1603, 1638; rbus.c sets one in rbus_open, callers of the core alone have none) *)
Definition subscribe_internal (master : bool) : stm :=
  fn [opt [Ret]; Acq Core;
      if master then Skip else blk [Use Core; opt [Rel Core; Ret]; Use Core];
      Rel Core;
      opt [if master then Skip else blk [Acq Core; remove_subscription_callback; Rel Core]]].
(** rbuscore.c:1660-1684 rbus_unsubscribeFromEvent *)
Definition unsubscribe_from_event (master : bool) : stm :=
  fn [opt [Ret]; if master then Skip else remove_subscription_callback].
(** rbuscore.c:1686-1746 rbus_publishEvent *)
Definition publish_event : stm := fn [opt [Ret]; Acq Core; Use Core; loop [Use Core]; Rel Core].
(** rbuscore.c:1748-1775 rbus_registerSubscribeHandler *)
Definition register_subscribe_handler : stm := fn [opt [Ret]; Acq Core; Use Core; opt [install_subscription_handlers]; Rel Core].
(** rbuscore.c:1783-1804 rbus_registerClientDisconnectHandler *)
Definition register_disconnect : stm := fn [Acq Core; opt [opt [Rel Core; Ret]]; Rel Core].
(** rbuscore.c:1806-1816 rbus_unregisterClientDisconnectHandler *)
Definition unregister_disconnect : stm := fn [Acq Core; Rel Core].
(** rbuscore.c:2637-2664 rbuscore_FindServerPrivateClient, with _rbuscore_find_server_privateconnection
    (2666-2677), when there is such a client and when there is none *)
Definition find_server (found : bool) : stm := fn [loop [Use Serv]; if found then blk [Use Serv; Rel Serv; Ret] else Skip].
(** rbuscore.c:1818-1830 rbuscore_publishDirectSubscriberEvent *)
Definition publish_direct : stm := fn [Acq Serv; alt [find_server true; Use Serv] [find_server false]; Rel Serv].
(** rbuscore.c:1832-1878 rbus_publishSubscriberEvent *)
Definition publish_subscriber : stm :=
  fn [opt [Ret]; Acq Serv;
      alt [find_server true; Use Serv; Rel Serv] [find_server false; Rel Serv; Acq Core; Use Core; Rel Core]].
(** rbuscore.c:2679-2702 rbuscore_updatePrivateListener *)
Definition update_private_listener : stm :=
  fn [opt [Ret]; alt [find_server true; Acq Serv; Use Serv; Rel Serv] [find_server false]].
(** rbuscore.c:2704-2725 rbuscore_PrivateThreadFunc *)
Definition private_thread : stm := fn [Acq Serv; Use Serv; loop [Use Serv]; Rel Serv].
(** rbuscore.c:2727-2799 _onDirectMessage; [u]: the handler.  The entry found is used after unlocking (2749) *)
Definition on_direct_message (u : stm) : stm :=
  fn [alt [Acq Serv; Use Serv; Rel Serv; opt [Use Serv; u]] [Acq Serv; Use Serv; loop [Use Serv]; Rel Serv]].
(** rbuscore.c:2801-2852 rbuscore_startPrivateListener *)
Definition start_private_listener : stm := fn [opt [Ret]; Acq Serv; Use Serv; opt [Rel Serv; Ret]; Use Serv; Rel Serv].
(** rbuscore.c:2892-2909 rbuscore_FindClientPrivateConnection *)
Definition find_client : stm := fn [opt [Acq Cli; Use Cli; Rel Cli]].
(** rbuscore.c:2948-3010 rbuscore_openPrivateConnectionToProvider *)
Definition open_private : stm := fn [opt [Ret]; Acq Cli; Use Cli; opt [Rel Cli; Ret]; Use Cli; Rel Cli].
(** rbuscore.c:3012-3040 rbuscore_createPrivateConnection *)
Definition create_private : stm := fn [opt [open_private]].
(** rbuscore.c:3042-3099 rbuscore_closePrivateConnection *)
Definition close_private : stm := fn [opt [Ret]; Acq Cli; Use Cli; opt [Rel Cli; Ret]; Use Cli; Rel Cli].
(** rbuscore.c:3101-3121 rbuscore_terminatePrivateConnection *)
Definition terminate_private : stm := fn [Acq Cli; Use Cli; opt [Use Cli; loop [Use Cli]]; Rel Cli].
(** rbuscore.c:1452-1528 master_event_callback; [u]: the master callback and the event's callback *)
Definition master_event (u : stm) : stm :=
  fn [opt [Ret]; opt [u; opt [Ret]]; Acq Core; loop [Use Core; opt [Rel Core; u; Ret]]; Rel Core].

(** ** rbus_element.c *)
(** rbus_element.c:1154-1187 replicateAcrossTableRowInstances *)
Definition replicate : stm := fn [Acq Tree; Use Tree; Rel Tree].
(** rbus_element.c:224-386 insertElement *)
Definition insert_element : stm := fn [opt [Ret]; Acq Tree; Use Tree; Rel Tree; opt [replicate]].
(** rbus_element.c:388-478 retrieveElement; 485-604 retrieveInstanceElementEx with syncTables=false *)
Definition retrieve : stm := fn [opt [Ret]; Acq Tree; Use Tree; Rel Tree].
(** rbus_element.c:485-604 retrieveInstanceElementEx with syncTables=true; [u]: the table's sync handler *)
Definition retrieve_sync (u : stm) : stm :=
  fn [opt [Ret]; Acq Tree; loop [Use Tree; opt [Acq Elm; u; Rel Elm]; Use Tree]; Rel Tree].
(** rbus_element.c:987-1051 instantiateTableRow *)
Definition instantiate_row : stm := fn [opt [Ret]; Acq Tree; Use Tree; opt [Rel Tree; Ret]; Use Tree; Rel Tree].
(** rbus_element.c:1053-1089 deleteTableRow *)
Definition delete_row : stm := fn [Acq Tree; Use Tree; Rel Tree].

(** ** rbus_valuechange.c and rbus_intervalsubscription.c *)
(** rbus_valuechange.c:247-328 rbusValueChange_AddPropertyNode; [u]: the get handler *)
Definition watch (u : stm) : stm :=
  fn [opt [Ret]; Acq Vc; Use Vc; Rel Vc; opt [Acq Elm; u; Rel Elm; opt [Ret]; Acq Vc; Use Vc; Rel Vc]].
(** rbus_valuechange.c:330-370 rbusValueChange_RemovePropertyNode *)
Definition unwatch : stm := fn [opt [Ret]; Acq Vc; Use Vc; Rel Vc].
(** rbus_valuechange.c:372-430 rbusValueChange_CloseHandle *)
Definition watch_close : stm :=
  fn [opt [Ret]; Acq Vc; loop [Use Vc]; Use Vc; alt [alt [Rel Vc] [Rel Vc]] [Rel Vc]].
(** rbus_intervalsubscription.c:217-263 rbusInterval_AddSubscriptionRecord *)
Definition add_record : stm := fn [opt [Ret]; Acq Ival; Use Ival; Rel Ival; opt [Use Ival]].
(** rbus_intervalsubscription.c:265-301 rbusInterval_RemoveSubscriptionRecord *)
Definition remove_record : stm := fn [opt [Ret]; Acq Ival; Use Ival; Rel Ival; opt [Acq Ival; Use Ival; Rel Ival]].
(** rbus_intervalsubscription.c:105-214 PublishingThreadFunc; [u]: the get handlers, under the element's
    mutex (rbus.c:1752-1850); the loop's continue at 154 ends an iteration *)
Definition publishing_thread (u : stm) : stm :=
  fn [Acq Rec; loop [Use Rec; retrieve; loop [Acq Elm; u; Rel Elm]; opt [publish_subscriber; opt [Brk]]]; Rel Rec;
      opt [Acq Ival; Acq Subs; Use Subs; Rel Subs; Use Ival; Rel Ival]].

(** ** rbus_message.c *)
(** rbus_message.c:120-158 rbusMessage_AddPrivateListener *)
Definition add_private_listener : stm := fn [opt [Ret]; find_client; opt [Ret]; Acq Msg; Use Msg; Rel Msg].
(** rbus_message.c:160-190 rbusMessage_AddListener *)
Definition add_listener : stm := fn [opt [Ret]; Acq Msg; Use Msg; Rel Msg].
(** rbus_message.c:192-219 rbusMessage_RemovePrivateListener *)
Definition remove_private_listener : stm := fn [opt [Ret]; find_client; opt [Ret]; Acq Msg; Use Msg; Rel Msg].
(** rbus_message.c:221-241 rbusMessage_RemoveListener *)
Definition remove_listener : stm := fn [opt [Ret]; Acq Msg; Use Msg; Rel Msg].
(** rbus_message.c:243-265 rbusMessage_RemoveAllListeners; the test at 254 is for a null entry *)
Definition remove_all_listeners : stm := fn [opt [Ret]; Acq Msg; loop [Use Msg]; Rel Msg].
(** rbus_message.c:267-293 rbusMessage_HasListener *)
Definition has_listener : stm := fn [opt [Ret]; Acq Msg; loop [Use Msg; opt [Brk]]; Rel Msg].

(** ** rbus_asyncsubscribe.c *)
(** rbus_asyncsubscribe.c:364-395 rbusAsyncSubscribe_AddSubscription *)
Definition async_add : stm := fn [Acq Queue; Use Queue; Rel Queue].
(** rbus_asyncsubscribe.c:397-410 rbusAsyncSubscribe_RemoveSubscription *)
Definition async_remove : stm := fn [opt [Ret]; Acq Queue; Use Queue; Rel Queue].
(** rbus_asyncsubscribe.c:412-433 rbusAsyncSubscribe_GetSubscription *)
Definition async_get : stm := fn [opt [Ret]; Acq Queue; Use Queue; Rel Queue].
(** rbus_asyncsubscribe.c:342-360 rbusAsyncSubscribeRetrier_Destroy *)
Definition async_destroy : stm := fn [Acq Queue; Rel Queue].
(** rbus_asyncsubscribe.c:435-465 rbusAsyncSubscribe_CloseHandle *)
Definition async_close : stm := fn [opt [Ret]; Acq Queue; Use Queue; Rel Queue; opt [async_destroy]].
(** rbus.c:1362-1391 _subscribe_async_callback_handler; [u]: the consumer's handler *)
Definition async_callback (u : stm) : stm := fn [u; opt [Acq Esubs; Use Esubs; Rel Esubs]].
(** rbus_asyncsubscribe.c:158-273 rbusAsyncSubscribeRetrier_SendSubscriptionRequests: the list is walked
    without its mutex *)
Definition async_send (u : stm) : stm :=
  fn [Use Queue; loop [Use Queue; opt [subscribe_internal true; opt [async_callback u; Acq Queue; Use Queue; Rel Queue]]; Use Queue]].
(** rbus_asyncsubscribe.c:275-313 AsyncSubscribeRetrier_threadFunc *)
Definition async_thread (u : stm) : stm :=
  fn [Acq Queue; loop [loop [Use Queue; Rel Queue; async_send u; Acq Queue]; Use Queue; opt [Use Queue]]; Rel Queue].

(** ** rbus.c: the provider *)
(** rbus.c:5907-6034 rbusEvent_Publish *)
Definition publish : stm := fn [opt [Ret]; retrieve; opt [Ret]; Acq Subs; Use Subs; loop [Use Subs; opt [publish_subscriber]]; Rel Subs].
(** rbus.c:5849-5905 rbusEvent_PublishRawData *)
Definition publish_raw : stm := fn [opt [Ret]; retrieve; opt [Ret]; Acq Subs; Use Subs; loop [Use Subs; opt [publish_direct]]; Rel Subs].
(** rbus_valuechange.c:127-245 rbusValueChange_pollingThreadFunc; [u]: the get handlers *)
Definition polling_thread (u : stm) : stm :=
  fn [Acq Vc; loop [Use Vc; opt [Brk]; loop [Use Vc; Acq Elm; u; Rel Elm; opt [publish; Use Vc]]]; Rel Vc].
(** rbus.c:1070-1237 subscribeHandlerImpl; [u]: the provider's handlers *)
Definition subscribe_impl (u : stm) : stm :=
  fn [opt [Ret]; opt [Acq Elm; u; Rel Elm; opt [Ret]]; opt [Ret]; Acq Subs; Use Subs;
      opt [Rel Subs; Ret]; opt [Rel Subs; Ret];
      loop [alt [alt [add_record] [remove_record]; Brk] [opt [alt [watch u] [unwatch]]]];
      opt [Use Subs]; Rel Subs].
(** rbus.c:1035-1068 valueChangeTableRowUpdate; the recursion as a loop *)
Definition row_watch (u : stm) : stm := fn [loop [opt [alt [watch u] [unwatch]]]].
(** rbus_subscriptions.c:746-784, 786-830, 832-862: resubscribeElementCache, resubscribeRowElementCache
    and handleClientDisconnect: a walk of the subscriptions that calls subscribeHandlerImpl *)
Definition walk_subs (u : stm) : stm := fn [Use Subs; loop [Use Subs; opt [retrieve; opt [Use Subs; subscribe_impl u]]]].
(** rbus.c:1239-1299 registerTableRow *)
Definition register_row (u : stm) : stm :=
  fn [instantiate_row; Acq Subs; Use Subs; Rel Subs; row_watch u; publish; opt [Acq Subs; walk_subs u; Rel Subs]].
(** rbus.c:1303-1350 unregisterTableRow *)
Definition unregister_row (u : stm) : stm := fn [row_watch u; Acq Subs; Use Subs; Rel Subs; delete_row; publish].
(** rbus.c:3376-3408 rbus_unregDataElements: the broker alone; rbus_handle.h:88-93 VERIFY_HANDLE reads the
    list of handles *)
Definition unreg_elements : stm := fn [Use Rbus; opt [Ret]].
(** rbus.c:3275-3374 rbus_regDataElements *)
Definition reg_elements (u : stm) : stm :=
  fn [Use Rbus; opt [Ret]; loop [opt [Brk]; insert_element; opt [Brk]; Acq Subs; walk_subs u; Rel Subs]; opt [unreg_elements]].
(** rbus_handle.c:105-129 rbusHandleList_ClientDisconnect *)
Definition handles_disconnect (u : stm) : stm := fn [Use Rbus; loop [Use Rbus; Acq Subs; opt [walk_subs u]; Rel Subs]; terminate_private].
(** rbus.c:1355-1360 _client_disconnect_callback_handler *)
Definition client_disconnect (u : stm) : stm := fn [Acq Rbus; handles_disconnect u; Rel Rbus].

(** ** rbus.c: the consumer *)
(** rbus.c:4950-5019 _rbus_event_unsubscribe *)
Definition event_unsubscribe : stm :=
  fn [Use Esubs; opt [find_client; alt [remove_private_listener] [has_listener; opt [remove_listener]]];
      unsubscribe_from_event true; Use Esubs].
(** rbus.c:1426-1494 _master_event_callback_handler; [u]: the consumer's handler *)
Definition event_callback (u : stm) : stm :=
  fn [Acq Rbus; Use Rbus; Rel Rbus; opt [Ret]; Acq Esubs; Use Esubs;
      alt [alt [event_unsubscribe; Rel Esubs; Ret] [opt [event_unsubscribe]; opt [Use Esubs]; u]] [Rel Esubs; Ret];
      Rel Esubs].
(** rbus.c:5221-5269 _subscribe_rawdata_handler *)
Definition raw_callback (u : stm) : stm :=
  fn [Acq Esubs; Use Esubs; opt [event_unsubscribe; opt [has_listener; opt [remove_listener]; Rel Esubs; Ret]]; Rel Esubs; u].
(** rbus.c:5021-5220 rbusEvent_SubscribeWithRetries; the entry is used after unlocking (5161) *)
Definition subscribe_retries (u : stm) : stm :=
  fn [Acq Esubs; Use Esubs; opt [Rel Esubs; Ret]; opt [async_get; opt [Rel Esubs; Ret]]; Rel Esubs;
      opt [async_add; Ret]; loop [subscribe_internal true]; subscribe_internal true;
      alt [Acq Esubs; Use Esubs; Rel Esubs; opt [event_callback u]; Use Esubs] [opt [Acq Esubs; Use Esubs; Rel Esubs]]].
(** rbus.c:5334-5384 rbusEvent_Subscribe, rbusEvent_SubscribeAsync *)
Definition subscribe (u : stm) : stm := fn [Use Rbus; opt [Ret]; subscribe_retries u].
(** rbus.c:5271-5332 rbusEvent_SubscribeRawData: the list is searched without its mutex *)
Definition subscribe_raw (u : stm) : stm :=
  fn [opt [Ret]; subscribe_retries u; opt [Ret]; find_client;
      alt [Use Esubs; opt [has_listener; opt [remove_listener]]; add_private_listener] [Use Esubs; add_listener]].
(** rbus.c:5386-5451 rbusEvent_Unsubscribe *)
Definition unsubscribe : stm :=
  fn [Use Rbus; opt [Ret]; Acq Esubs; Use Esubs;
      alt [unsubscribe_from_event true; alt [Use Esubs; Rel Esubs; Ret] [alt [Use Esubs] [Use Esubs; Rel Esubs; Ret]]] [Rel Esubs; Ret];
      Rel Esubs].
(** rbus.c:5453-5493 rbusEvent_UnsubscribeRawData *)
Definition unsubscribe_raw : stm := fn [Use Rbus; opt [Ret]; Acq Esubs; Use Esubs; opt [event_unsubscribe]; Rel Esubs].
(** rbus.c:5750-5807 rbusEvent_UnsubscribeEx with _rbus_AsyncSubscribe_remove_subscription (5726-5748) *)
Definition unsubscribe_ex : stm :=
  fn [opt [Ret];
      loop [Acq Esubs; Use Esubs;
            alt [has_listener; opt [remove_listener]; event_unsubscribe] [async_remove]; Rel Esubs]].
(** rbus.c:5495-5537 rbusEvent_SubscribeEx; 5626-5668 rbusEvent_SubscribeExAsync *)
Definition subscribe_ex (u : stm) : stm :=
  fn [Use Rbus; opt [Ret]; loop [subscribe_retries u; opt [opt [unsubscribe_ex]; Brk]]].
(** rbus.c:5539-5624 rbusEvent_SubscribeExRawData *)
Definition subscribe_ex_raw (u : stm) : stm :=
  fn [opt [Ret];
      loop [opt [Brk]; subscribe_retries u; opt [opt [unsubscribe_ex]; Brk];
            Acq Esubs; find_client;
            alt [Use Esubs; opt [has_listener; opt [remove_listener]]; add_private_listener] [Use Esubs; add_listener];
            Rel Esubs]].
(** rbus.c:5670-5724 rbusEvent_UnsubscribeExRawData: the mutex is taken for each subscription and given
    back once; the number of subscriptions taken to be positive *)
Definition unsubscribe_ex_raw : stm :=
  fn [opt [Ret]; Acq Esubs; Use Esubs; opt [event_unsubscribe];
      loop [Acq Esubs; Use Esubs; opt [event_unsubscribe]]; Rel Esubs].
(** rbus.c:5809-5848 rbusEvent_IsSubscriptionExist *)
Definition is_subscribed : stm := fn [opt [Ret]; Acq Esubs; Use Esubs; Rel Esubs].

(** ** rbus.c: handles *)
(** rbus.c:337-375 rbusOpenDirect_SubAdd: without the mutex of the list *)
Definition sub_add : stm := fn [loop [Use Esubs; opt [has_listener; opt [remove_listener]; opt [add_private_listener]]]].
(** rbus.c:377-406 rbusCloseDirect_SubRemove *)
Definition sub_remove : stm := fn [loop [Use Esubs; opt [remove_private_listener; add_listener]]].
(** rbus.c:3079-3129 rbus_openDirect *)
Definition open_direct : stm :=
  fn [opt [Ret]; find_client; opt [Ret]; create_private; opt [sub_add; opt [register_disconnect]]].
(** rbus.c:3131-3162 rbus_closeDirect *)
Definition close_direct : stm := fn [opt [Ret]; opt [unregister_disconnect]; sub_remove; close_private].
(** rbus.c:3164-3273 rbus_close; [last]: it is the only handle.  While a handle is open there is a connection *)
Definition close_handle (last : bool) : stm :=
  fn [Use Rbus; opt [Ret]; Acq Rbus; Acq Esubs; opt [loop [Use Esubs; event_unsubscribe; opt [Use Esubs]]; Use Esubs]; Rel Esubs;
      opt [remove_all_listeners]; opt [Acq Subs; Use Subs; Rel Subs]; watch_close; async_close; opt [Use Tree];
      unregister_obj; Use Rbus; if last then close_broker true else Skip; Rel Rbus].
(** rbus.c:2942-3075 rbus_open *)
Definition open_handle : stm :=
  fn [opt [Ret]; Acq Rbus; Use Rbus; opt [Rel Rbus; alt [close_handle true] [close_handle false]; Acq Rbus];
      opt [Rel Rbus; Ret]; opt [open_broker; opt [Rel Rbus; Ret]]; register_obj;
      opt [opt [unregister_disconnect]; opt [close_broker true]; Rel Rbus; Ret]; Use Rbus; Rel Rbus].
