(** The ideal behaviour: a finite map from strings to pointers, given by its
    lookup function; [dom] counts the bound keys. *)
From Verif Require Import Common HashMapModel.

Record amap := mkA { lookup : key -> option Z; keys : list key }.
Definition aempty : amap := mkA (fun _ => None) [].
Definition aset (m : amap) (k : key) (v : Z) : amap :=
  mkA (fun k' => if bytes_eqb k' k then Some v else lookup m k')
      (if is_some (lookup m k) then keys m else k :: keys m).
Definition aremove (m : amap) (k : key) : amap :=
  mkA (fun k' => if bytes_eqb k' k then None else lookup m k')
      (filter (fun k' => negb (bytes_eqb k' k)) (keys m)).

Definition amap_step (m : amap) (o : hop) : amap * hres :=
  match o with
  | HSet k v => (aset m k v, HDone)
  | HGet k => (m, HPtr (match lookup m k with Some v => v | None => 0%Z end))
  | HContains k => (m, HBool (is_some (lookup m k)))
  | HSize => (m, HNum (length (keys m)))
  | HRemove k => (aremove m k, HBool (is_some (lookup m k)))
  end.
Fixpoint amap_run (m : amap) (ops : list hop) : list hres :=
  match ops with
  | [] => []
  | o :: ops' => let '(m', r) := amap_step m o in r :: amap_run m' ops'
  end.
