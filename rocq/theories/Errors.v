(** Result codes. *)
From Verif Require Import Common.
Local Open Scope Z_scope.

(** include/rbus.h:102-136 rbusError_t *)
Definition E_SUCCESS : Z := 0.
Definition E_BUS_ERROR : Z := 1.
Definition E_INVALID_INPUT : Z := 2.
Definition E_NOT_INITIALIZED : Z := 3.
Definition E_OUT_OF_RESOURCES : Z := 4.
Definition E_DESTINATION_NOT_FOUND : Z := 5.
Definition E_DESTINATION_NOT_REACHABLE : Z := 6.
Definition E_DESTINATION_RESPONSE_FAILURE : Z := 7.
Definition E_INVALID_RESPONSE_FROM_DESTINATION : Z := 8.
Definition E_INVALID_OPERATION : Z := 9.
Definition E_INVALID_EVENT : Z := 10.
Definition E_INVALID_HANDLE : Z := 11.
Definition E_SESSION_ALREADY_EXIST : Z := 12.
Definition E_COMPONENT_NAME_DUPLICATE : Z := 13.
Definition E_ELEMENT_NAME_DUPLICATE : Z := 14.
Definition E_ELEMENT_NAME_MISSING : Z := 15.
Definition E_COMPONENT_DOES_NOT_EXIST : Z := 16.
Definition E_ELEMENT_DOES_NOT_EXIST : Z := 17.
Definition E_ACCESS_NOT_ALLOWED : Z := 18.
Definition E_INVALID_CONTEXT : Z := 19.
Definition E_TIMEOUT : Z := 20.
Definition E_ASYNC_RESPONSE : Z := 21.
Definition E_INVALID_METHOD : Z := 22.
Definition E_NOSUBSCRIBERS : Z := 23.
Definition E_SUBSCRIPTION_ALREADY_EXIST : Z := 24.
Definition E_INVALID_NAMESPACE : Z := 25.
Definition E_DIRECT_CON_NOT_EXIST : Z := 26.
Definition E_NOT_WRITABLE : Z := 27.
Definition E_NOT_READABLE : Z := 28.
Definition E_INVALID_PARAMETER_TYPE : Z := 29.
Definition E_INVALID_PARAMETER_VALUE : Z := 30.
