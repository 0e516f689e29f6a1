(** Model of src/rtmessage/rtHashMap.c with the default (string) key functions.
    Buckets and the node vectors inside them are rtVectors; they are modelled as
    lists, which C17 justifies.  Values are pointers (NULL = 0).
    Simplifications: allocation always succeeds; keys are non-NULL C strings that
    do not alias the map's own key copies; the load comparisons, done in float on
    quotients by a power of two, are written as exact integer comparisons. *)
From Verif Require Import Common Bytes VectorSpec.

(** a C string; rtHashMap.c:30-35 *)
Definition key := list Z.
(** rtHashMap.c:30-35 *)
Definition node := (key * Z)%type.
Definition RTHASHMAP_INITSIZE : nat := 16. (* rtHashMap.c:27 *)

(** rtHashMap.c:37-48 *)
Record hmap := mkH { h_buckets : list (list node); h_size : nat }.

(** rtHashMap.c:289-299 rtHashMap_Hash_Func_String: int arithmetic (written with
    the two's complement wrap, as every supported compiler does), [char] signed;
    abs(INT_MIN) = INT_MIN, then conversion to size_t and modulo. *)
Definition hash_int (k : key) : Z :=
  fold_left (fun h c => to_signed 32 (to_unsigned 32 (h * 31 + to_signed 8 c)))%Z k 0%Z.
(** rtHashMap.c:289-299, continued *)
Definition c_abs (n : Z) : Z := if (n <? 0)%Z then (if n =? -2147483648 then n else - n)%Z else n.
(** rtHashMap.c:289-299, continued *)
Definition hash_string (nbuckets : nat) (k : key) : nat :=
  Z.to_nat (to_unsigned 64 (c_abs (hash_int k)) mod Z.of_nat nbuckets).

Section WithHasher.
(** key_hasher: any function; rtHashMap_Create uses [hash_string]. *)
Variable hasher : nat -> key -> nat.

(** rtHashMap.c:127-183 rtHashMap_Create *)
Definition rtHashMap_Create : hmap := mkH (repeat [] RTHASHMAP_INITSIZE) 0.

(** rtHashMap.c:50-59 rtHashMap_GetBucket: index and contents, NULL when the hash is out of range *)
Definition getBucket (bs : list (list node)) (k : key) : option (nat * list node) :=
  let h := hasher (length bs) k in
  match nth_error bs h with Some b => Some (h, b) | None => None end.

(** rtHashMap.c:61-79, 301-319: node matches when strcmp is 0 *)
Definition node_is (k : key) (n : node) : bool := bytes_eqb (fst n) k.

(** rtHashMap.c:81-88 rtHashMap_GetNode *)
Definition getNode (m : hmap) (k : key) : option node :=
  match getBucket (h_buckets m) k with
  | Some (_, b) => find (node_is k) b
  | None => None
  end.

(** rtVector_PushBack(rtHashMap_GetBucket(..), node): a NULL bucket is dereferenced. rtHashMap.c:210-220, 236-246 *)
Definition pushNode (bs : list (list node)) (n : node) : outcome unit (list (list node)) :=
  match getBucket bs (fst n) with
  | Some (i, b) => Ok (upd bs i (b ++ [n]))
  | None => UB
  end.

(** rtHashMap.c:210-220: rehash in old bucket order *)
Fixpoint pushAll (bs : list (list node)) (ns : list node) : outcome unit (list (list node)) :=
  match ns with
  | [] => Ok bs
  | n :: ns' => do bs' <- pushNode bs n; pushAll bs' ns'
  end.

(** rtHashMap.c:191-223 rtHashMap_Resize *)
Definition resize (bs : list (list node)) (grow : bool) : outcome unit (list (list node)) :=
  let next_size := if grow then length bs * 2 else length bs / 2 in
  pushAll (repeat [] next_size) (concat bs).

(** rtHashMap.c:229-234,247-248: the found node gets the new key copy and value *)
Fixpoint overwrite (b : list node) (k : key) (v : Z) : list node :=
  match b with
  | [] => []
  | n :: b' => if node_is k n then (k, v) :: b' else n :: overwrite b' k v
  end.

(** rtHashMap.c:225-249 rtHashMap_Set, load factor 0.75 *)
Definition rtHashMap_Set (m : hmap) (k : key) (v : Z) : outcome unit hmap :=
  match getBucket (h_buckets m) k with
  | None => UB
  | Some (i, b) =>
      match find (node_is k) b with
      | Some _ => Ok (mkH (upd (h_buckets m) i (overwrite b k v)) (h_size m))
      | None =>
          do bs <- (if 3 * length (h_buckets m) <? 4 * (h_size m + 1)
                    then resize (h_buckets m) true else Ok (h_buckets m));
          do bs' <- pushNode bs (k, v);
          Ok (mkH bs' (h_size m + 1))
      end
  end.

(** rtHashMap.c:251-258 rtHashMap_Get *)
Definition rtHashMap_Get (m : hmap) (k : key) : Z :=
  match getNode m k with Some n => snd n | None => 0%Z end.
(** rtHashMap.c:265-272 rtHashMap_Contains *)
Definition rtHashMap_Contains (m : hmap) (k : key) : bool := is_some (getNode m k).
(** rtHashMap.c:260-263 rtHashMap_GetSize *)
Definition rtHashMap_GetSize (m : hmap) : nat := h_size m.

(** rtHashMap.c:274-287 rtHashMap_Remove: [size / nbuckets] is an integer
    division; q / 2.0f < 0.75f holds exactly when q <= 1 *)
Definition rtHashMap_Remove (m : hmap) (k : key) : outcome unit (hmap * bool) :=
  match getBucket (h_buckets m) k with
  | None => UB
  | Some (i, b) =>
      if existsb (node_is k) b then
        let bs := upd (h_buckets m) i (remove_first (node_is k) b) in
        let sz := h_size m - 1 in
        do bs' <- (if (RTHASHMAP_INITSIZE <? length bs) && (sz / length bs <=? 1)
                   then resize bs false else Ok bs);
        Ok (mkH bs' sz, true)
      else Ok (m, false)
  end.

(** The operations a history consists of, one for each function modelled above; no code of its own. *)
Inductive hop := HSet (k : key) (v : Z) | HGet (k : key) | HContains (k : key) | HSize | HRemove (k : key).
(** what the operations return; no code of its own *)
Inductive hres := HDone | HPtr (v : Z) | HBool (b : bool) | HNum (n : nat).

(** One operation of a history: calls the functions modelled above; no code of its own. *)
Definition hm_step (m : hmap) (o : hop) : outcome unit (hmap * hres) :=
  match o with
  | HSet k v => do m' <- rtHashMap_Set m k v; Ok (m', HDone)
  | HGet k => Ok (m, HPtr (rtHashMap_Get m k))
  | HContains k => Ok (m, HBool (rtHashMap_Contains m k))
  | HSize => Ok (m, HNum (rtHashMap_GetSize m))
  | HRemove k => do (m', b) <- rtHashMap_Remove m k; Ok (m', HBool b)
  end.
(** A history: one operation after the other; no code of its own. *)
Fixpoint hm_run (m : hmap) (ops : list hop) : outcome unit (list hres) :=
  match ops with
  | [] => Ok []
  | o :: ops' => do (m', r) <- hm_step m o; do rs <- hm_run m' ops'; Ok (r :: rs)
  end.
End WithHasher.
