(** C18: a hash map behaves as a finite map. *)
From Coq Require Import String.
From Verif Require Import Common HashMapModel HashMapSpec HashMapProofs.
Local Open Scope string_scope. Local Open Scope list_scope.

(** Every history of set/get/contains/size/remove, through any number of grow and
    shrink rehashes, gives the results of a finite map and never touches a
    missing bucket. *)
Theorem C18_hashmap_is_map : forall ops,
  hm_run hash_string rtHashMap_Create ops = Ok (amap_run aempty ops).
Proof. exact hash_map_ok. Qed.
Print Assumptions C18_hashmap_is_map.

(** The same for a caller-supplied hash function (rtHashMap_CreateEx) that stays in range. *)
Theorem C18_hashmap_is_map_any_hasher : forall hasher,
  (forall n k, 0 < n -> hasher n k < n) ->
  forall ops, hm_run hasher rtHashMap_Create ops = Ok (amap_run aempty ops).
Proof. exact hash_map_any_ok. Qed.
Print Assumptions C18_hashmap_is_map_any_hasher.

(** Non-trivial case: 40 keys force two grow steps, the removals shrink again. *)
Definition many (n : nat) : list key := map (fun i => [1 + Z.of_nat i; 7]%Z) (seq 0 n).
Example C18_witness :
  hm_run hash_string rtHashMap_Create
    (map (fun k => HSet k (hd 0%Z k)) (many 40) ++ [HSize; HSet (bs "a.b") 9; HSet (bs "a.b") 8; HGet (bs "a.b")]
     ++ map HRemove (many 30) ++ [HSize; HGet [35; 7]%Z; HContains [3; 7]%Z])
  = Ok (repeat HDone 40 ++ [HNum 40; HDone; HDone; HPtr 8] ++ repeat (HBool true) 30 ++ [HNum 11; HPtr 35; HBool false])
  /\ (forall n k, 0 < n -> hash_string n k < n).
Proof. split; [vm_compute; reflexivity|exact hash_string_lt]. Qed.
