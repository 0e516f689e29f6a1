(** What the claims about mutexes are stated in. *)
From Verif Require Import Common GuardModel.
Local Open Scope list_scope.

(** the mutexes a statement names *)
Fixpoint muts (s : stm) : list mutex :=
  match s with
  | Acq m | Rel m | Use m => [m]
  | Seq a b | Alt a b => muts a ++ muts b
  | Loop a | Fn a => muts a
  | _ => []
  end.
(** a thread that comes in with none of the mutexes [s] names *)
Definition fresh_for (s : stm) (h0 : list mutex) := forall m, In m (muts s) -> ~ In m h0.
(** however it ends, it ends, and with the mutexes it came in with *)
Definition released (s : stm) := forall h0 e h' f, fresh_for s h0 -> ex s h0 e h' f -> e <> Cut -> e = Go /\ h' = h0.
(** at no point has it taken a mutex twice, given back one it has not, or touched data without its mutex *)
Definition guarded (s : stm) := forall h0 e h' f, fresh_for s h0 -> ex s h0 e h' f -> f = [].
(** only faults of [l] *)
Definition only (l : list fault) (s : stm) := forall h0 e h' f, fresh_for s h0 -> ex s h0 e h' f -> incl f l.
(** one statement or another *)
Fixpoint choice (l : list stm) : stm := match l with [] => Skip | [s] => s | s :: l => Alt s (choice l) end.
(** a thread's calls, one after the other *)
Inductive calls (P : stm -> Prop) : list mutex -> exit -> list mutex -> Prop :=
| calls_none : forall h, calls P h Go h
| calls_out : forall s h e h1 f, P s -> ex s h e h1 f -> e <> Go -> calls P h e h1
| calls_more : forall s h h1 f e h2, P s -> ex s h Go h1 f -> calls P h1 e h2 -> calls P h e h2.

(** what a program may call: rbus.h and rbus_message.h, rbuscore.h *)
Definition core_api : list stm :=
  [open_broker; close_broker true; register_obj; register_method; unregister_method; register_table; unregister_table; unregister_obj;
   register_event; unregister_event; subscribe_internal true; subscribe_internal false; unsubscribe_from_event true; unsubscribe_from_event false;
   publish_event; register_subscribe_handler; register_disconnect; unregister_disconnect; publish_direct; publish_subscriber;
   update_private_listener; start_private_listener; find_client; create_private; close_private; terminate_private].
(** [u]: what a handler does when it is run within the call *)
Definition rbus_api (u : stm) : list stm :=
  [subscribe u; subscribe_ex u; subscribe_raw u; subscribe_ex_raw u; unsubscribe; unsubscribe_raw; unsubscribe_ex; unsubscribe_ex_raw;
   is_subscribed; publish; publish_raw; reg_elements u; unreg_elements; register_row u; unregister_row u;
   add_private_listener; add_listener; remove_private_listener; remove_listener; remove_all_listeners; has_listener;
   open_direct; close_direct; open_handle; close_handle true; close_handle false].
(** what is run by rbus's own threads, with what is looked up in the tree of elements for them *)
Definition threads (u : stm) : list stm :=
  [dispatch_method_call u; on_direct_message u; private_thread; master_event u; event_callback u; raw_callback u; async_callback u; async_thread u;
   polling_thread u; publishing_thread u; subscribe_impl u; retrieve; retrieve_sync u; insert_element; instantiate_row; delete_row;
   watch u; unwatch; watch_close; add_record; remove_record; async_add; async_remove; async_get; async_close].
(** a handler that makes any calls of the API any number of times *)
Definition busy : stm := Loop (choice (core_api ++ rbus_api Skip)).
(** and one that makes only calls that do not take the mutex of the list of handles *)
Definition modest : stm :=
  Loop (choice (core_api ++ [unsubscribe; unsubscribe_raw; unsubscribe_ex; unsubscribe_ex_raw; is_subscribed; publish; publish_raw; reg_elements Skip;
                             unreg_elements; register_row Skip; unregister_row Skip; add_private_listener; add_listener; remove_private_listener;
                             remove_listener; remove_all_listeners; has_listener; open_direct; close_direct])).
(** all mutexes *)
Definition mutexes : list mutex := [Core; Serv; Cli; Rbus; Esubs; Subs; Msg; Queue; Tree; Elm; Vc; Ival; Rec].
(** a handler that takes each mutex and gives it back, in any order, any number of times *)
Definition probe : stm := Loop (choice (map (fun m => blk [Acq m; Rel m]) mutexes)).
(** functions that keep to the mutexes *)
Definition careful : list stm :=
  [dispatch_method_call Skip; register_obj; register_method; unregister_method; register_table; unregister_table; unregister_obj; unregister_event;
   subscribe_internal true; unsubscribe_from_event false; publish_event; register_disconnect; unregister_disconnect;
   private_thread; start_private_listener; find_client; create_private; close_private; terminate_private; master_event Skip;
   insert_element; retrieve; retrieve_sync Skip; instantiate_row; delete_row; watch Skip; unwatch; watch_close; remove_record;
   add_private_listener; add_listener; remove_private_listener; remove_listener; remove_all_listeners; has_listener;
   async_add; async_remove; async_get; async_close; async_callback Skip; event_callback Skip; raw_callback Skip; unsubscribe_ex; is_subscribed].
(** the others, each with what it does wrong *)
Definition careless : list (stm * list fault) :=
  [(perform_cleanup, [Bare Serv; Bare Cli; Bare Core]);
   (open_broker, [Again Core; Bare Serv; Bare Cli; Bare Core; Foreign Core]);
   (close_broker true, [Again Core; Bare Serv; Bare Cli; Bare Core; Foreign Core]);
   (register_event, [Again Core; Bare Core; Foreign Core]);
   (register_subscribe_handler, [Again Core; Bare Core; Foreign Core]);
   (subscribe_internal false, [Again Core; Foreign Core]);
   (publish_direct, [Bare Serv; Foreign Serv]); (publish_subscriber, [Bare Serv; Foreign Serv]);
   (update_private_listener, [Foreign Serv; Bare Serv]); (on_direct_message Skip, [Bare Serv]);
   (add_record, [Bare Ival]); (publishing_thread Skip, [Bare Serv; Foreign Serv]);
   (async_thread Skip, [Bare Queue]); (publish, [Bare Serv; Foreign Serv]); (publish_raw, [Bare Serv; Foreign Serv]);
   (polling_thread Skip, [Bare Serv; Foreign Serv]); (subscribe_impl Skip, [Bare Ival]);
   (register_row Skip, [Bare Serv; Foreign Serv; Bare Subs; Again Subs; Bare Ival; Foreign Subs]);
   (unregister_row Skip, [Bare Serv; Foreign Serv]);
   (reg_elements Skip, [Bare Subs; Again Subs; Bare Ival; Foreign Subs; Bare Rbus]); (unreg_elements, [Bare Rbus]);
   (client_disconnect Skip, [Bare Subs; Again Subs; Bare Ival; Foreign Subs]);
   (subscribe Skip, [Bare Rbus; Bare Esubs]); (subscribe_ex Skip, [Bare Rbus; Bare Esubs]); (subscribe_raw Skip, [Bare Esubs]);
   (subscribe_ex_raw Skip, [Bare Esubs]); (unsubscribe, [Bare Rbus]); (unsubscribe_raw, [Bare Rbus]); (unsubscribe_ex_raw, [Again Esubs]);
   (open_direct, [Bare Esubs]); (close_direct, [Bare Esubs]);
   (close_handle false, [Bare Rbus; Bare Tree]);
   (close_handle true, [Bare Rbus; Bare Tree; Again Core; Bare Serv; Bare Cli; Bare Core; Foreign Core]);
   (open_handle, [Bare Rbus; Bare Tree; Again Core; Bare Serv; Bare Cli; Bare Core; Foreign Core])].
