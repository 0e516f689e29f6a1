From Verif Require Import Common CommonFacts VectorModel VectorSpec.

(** The vector's cells are the list [l] followed by slack; there is always at
    least one slack cell, which is what makes data[i+1] in bounds. *)
Definition vrel (v : vec) (l : list Z) : Prop :=
  v_count v = length l /\
  match v_data v with
  | None => l = [] /\ v_capacity v = 0
  | Some d => exists slack, d = map Some l ++ slack /\ length d = v_capacity v /\ 0 < length slack
  end.

Lemma vrel_create : vrel rtVector_Create [].
Proof. split; [reflexivity|]. simpl. auto. Qed.

Lemma upd_app_here {A} (l : list A) x s y : upd (l ++ x :: s) (length l) y = l ++ y :: s.
Proof. induction l as [|z l IH]; simpl; [reflexivity|]. rewrite IH. reflexivity. Qed.

Lemma cell_write_ok d i x : i < length d -> cell_write d i x = Ok (upd d i x).
Proof. intros H. unfold cell_write. destruct (Nat.ltb_spec i (length d)); [reflexivity|lia]. Qed.

Lemma push_ok v l x : vrel v l -> exists v', rtVector_PushBack v x = Ok v' /\ vrel v' (l ++ [x]).
Proof.
  intros [Hc Hd]. unfold rtVector_PushBack. destruct v as [d cap cnt]; cbn [v_data v_capacity v_count] in *.
  destruct d as [d|].
  - destruct Hd as (slack & -> & Hl & Hs).
    rewrite app_length, map_length in Hl.
    assert (E : exists d' cap', (if cap <=? cnt + 1 then ((map Some l ++ slack) ++ repeat None RTVECT_BLOCKSIZE, cap + RTVECT_BLOCKSIZE)
                else (map Some l ++ slack, cap)) = (map Some l ++ d', cap') /\ length l + length d' = cap' /\ 1 < length d').
    { destruct (Nat.leb_spec cap (cnt + 1)).
      - exists (slack ++ repeat None RTVECT_BLOCKSIZE), (cap + RTVECT_BLOCKSIZE).
        rewrite <- app_assoc. split; [reflexivity|]. rewrite app_length, repeat_length. unfold RTVECT_BLOCKSIZE. lia.
      - exists slack, cap. split; [reflexivity|]. lia. }
    destruct E as (d' & cap' & -> & Hl' & Hs'). cbn beta iota.
    rewrite cell_write_ok by (rewrite app_length, map_length; lia). cbn [obind].
    eexists. split; [reflexivity|]. unfold vrel; cbn [v_count v_data v_capacity].
    split; [rewrite app_length; simpl length; lia|].
    destruct d' as [|c d']; [simpl in Hs'; lia|].
    exists d'. replace cnt with (length (map Some l)) by (rewrite map_length; auto). rewrite upd_app_here.
    simpl in Hs', Hl'. split; [rewrite map_app, <- app_assoc; reflexivity|].
    split; [|lia]. rewrite app_length, map_length. simpl. lia.
  - destruct Hd as [-> Hcap]. cbn [length] in Hc. subst cap cnt. rewrite cell_write_ok by (rewrite repeat_length; unfold RTVECT_BLOCKSIZE; lia). cbn [obind].
    eexists; split; [reflexivity|]. unfold vrel; cbn [v_count v_data v_capacity].
    split; [reflexivity|]. exists (repeat (Some 0%Z) 15). repeat split; simpl; lia.
Qed.

Lemma cell_use_app l slack i x : nth_error l i = Some x -> cell_use (map Some l ++ slack) i = Ok x.
Proof.
  intros H. unfold cell_use. rewrite nth_error_app1.
  - rewrite nth_error_map, H. reflexivity.
  - rewrite map_length. apply nth_error_Some. congruence.
Qed.

(** The position of the first match splits the list. *)
Lemma first_split {A} (p : A -> bool) l : existsb p l = true ->
  exists a x b, l = a ++ x :: b /\ p x = true /\ existsb p a = false /\
    remove_first p l = a ++ b /\ find p l = Some x.
Proof.
  induction l as [|y l IH]; cbn [existsb]; intros H; [discriminate|].
  destruct (p y) eqn:E.
  - exists [], y, l. cbn [remove_first find]. rewrite E. auto.
  - cbn [orb] in H. destruct (IH H) as (a & x & b & -> & Hx & Ha & Hr & Hf).
    exists (y :: a), x, b. cbn [existsb remove_first find app]. rewrite E, Ha, Hr, Hf. auto.
Qed.

Lemma search_hit p a x b slack : forall pre, p x = true -> existsb p a = false ->
  vec_search p (map Some (pre ++ a ++ x :: b) ++ slack) (length pre) (length a + S (length b)) =
  Ok (Some (length pre + length a)).
Proof.
  induction a as [|y a IH]; intros pre Hx Ha.
  - cbn [length Nat.add vec_search app].
    rewrite (cell_use_app _ _ _ x) by (rewrite nth_error_app2, Nat.sub_diag by lia; reflexivity).
    cbn [obind]. rewrite Hx. rewrite Nat.add_0_r. reflexivity.
  - cbn [existsb] in Ha. apply orb_false_iff in Ha as [Hy Ha].
    cbn [length Nat.add vec_search].
    rewrite (cell_use_app _ _ _ y) by (rewrite nth_error_app2, Nat.sub_diag by lia; reflexivity).
    cbn [obind]. rewrite Hy.
    specialize (IH (pre ++ [y]) Hx Ha). rewrite <- app_assoc in IH. cbn [app] in IH |- *.
    rewrite app_length in IH. simpl length in IH. rewrite Nat.add_1_r in IH. rewrite IH.
    do 2 f_equal. lia.
Qed.

Lemma search_miss p l slack : forall pre, existsb p l = false ->
  vec_search p (map Some (pre ++ l) ++ slack) (length pre) (length l) = Ok None.
Proof.
  induction l as [|y l IH]; intros pre Ha; [reflexivity|].
  cbn [existsb] in Ha. apply orb_false_iff in Ha as [Hy Ha]. cbn [length vec_search].
  rewrite (cell_use_app _ _ _ y) by (rewrite nth_error_app2, Nat.sub_diag by lia; reflexivity).
  cbn [obind]. rewrite Hy.
  specialize (IH (pre ++ [y]) Ha). rewrite <- app_assoc in IH. cbn [app] in IH.
  rewrite app_length in IH. simpl length in IH. rewrite Nat.add_1_r in IH. exact IH.
Qed.

Lemma search_hit0 p a x b slack : p x = true -> existsb p a = false ->
  vec_search p (map Some (a ++ x :: b) ++ slack) 0 (length a + S (length b)) = Ok (Some (length a)).
Proof. exact (search_hit p a x b slack []). Qed.
Lemma search_miss0 p l slack : existsb p l = false ->
  vec_search p (map Some l ++ slack) 0 (length l) = Ok None.
Proof. exact (search_miss p l slack []). Qed.

(** Shifting the tail left by one. *)
Lemma shift_ok : forall t pre x slack, exists c,
  vec_shift (pre ++ x :: t ++ slack) (length pre) (length t) = Ok (pre ++ t ++ c :: slack).
Proof.
  induction t as [|y t IH]; intros pre x slack; [exists x; reflexivity|].
  cbn [length vec_shift app].
  unfold cell_copy. rewrite Nat.add_1_r. rewrite nth_error_app2 by lia.
  replace (S (length pre) - length pre) with 1 by lia. cbn [nth_error obind].
  rewrite cell_write_ok by (rewrite app_length; simpl; lia). cbn [obind].
  rewrite upd_app_here.
  replace (pre ++ y :: y :: t ++ slack) with ((pre ++ [y]) ++ y :: t ++ slack) by (rewrite <- app_assoc; reflexivity).
  replace (S (length pre)) with (length (pre ++ [y])) by (rewrite app_length; simpl; lia).
  destruct (IH (pre ++ [y]) y slack) as [c E]. exists c.
  rewrite E. rewrite <- app_assoc. reflexivity.
Qed.

Lemma clear_ok : forall n d i, i + n <= length d ->
  exists d', vec_clear d i n = Ok d' /\ length d' = length d /\ firstn i d' = firstn i d.
Proof.
  induction n as [|n IH]; intros d i H; [exists d; auto|].
  cbn [vec_clear]. rewrite cell_write_ok by lia. cbn [obind].
  destruct (IH (upd d i (Some 0%Z)) (S i)) as (d' & E & L & F); [rewrite upd_length; lia|].
  exists d'. rewrite E. split; [reflexivity|]. rewrite L, upd_length. split; [reflexivity|].
  apply (f_equal (firstn i)) in F. rewrite !firstn_firstn in F. rewrite Nat.min_l in F by lia. rewrite F.
  clear. revert i; induction d as [|c d IH]; intros [|i]; simpl; auto. rewrite IH. reflexivity.
Qed.

Lemma app_prefix {A} (d : list A) (l : list A) n : firstn n d = l -> n = length l -> n <= length d ->
  exists s, d = l ++ s /\ length s = length d - n.
Proof.
  intros H Hn Hl. exists (skipn n d). rewrite <- H, firstn_skipn. split; [reflexivity|]. apply skipn_length.
Qed.

Lemma removeby_ok v l p : vrel v l ->
  if existsb p l then exists v', rtVector_RemoveBy v p = Ok v' /\ vrel v' (remove_first p l)
  else rtVector_RemoveBy v p = Err RT_FAIL.
Proof.
  intros [Hc Hd]. unfold rtVector_RemoveBy. destruct v as [d cap cnt]; cbn [v_data v_capacity v_count] in *.
  destruct d as [d|].
  2: { destruct Hd as [-> _]. subst. reflexivity. }
  destruct Hd as (slack & -> & Hl & Hs). rewrite app_length, map_length in Hl.
  destruct (existsb p l) eqn:E.
  - destruct (first_split p l E) as (a & x & b & -> & Hx & Ha & Hr & _). rewrite Hr.
    rewrite app_length in Hc, Hl. simpl length in Hc, Hl.
    rewrite Hc. rewrite (search_hit0 p a x b slack Hx Ha). cbn [obind].
    replace (length a + S (length b) - length a) with (S (length b)) by lia.
    destruct slack as [|s slack]; [simpl in Hs; lia|].
    rewrite map_app. cbn [map]. rewrite <- app_assoc. cbn [app].
    replace (map Some a ++ Some x :: map Some b ++ s :: slack)
      with (map Some a ++ Some x :: (map Some b ++ [s]) ++ slack)
      by (rewrite <- app_assoc; reflexivity).
    replace (vec_shift (map Some a ++ Some x :: (map Some b ++ [s]) ++ slack) (length a) (S (length b)))
      with (vec_shift (map Some a ++ Some x :: (map Some b ++ [s]) ++ slack) (length (map Some a)) (length (map Some b ++ [s])))
      by (f_equal; [apply map_length|rewrite app_length, map_length; simpl; lia]).
    destruct (shift_ok (map Some b ++ [s]) (map Some a) (Some x) slack) as [c Ec].
    rewrite Ec. cbn [obind].
    set (d1 := map Some a ++ (map Some b ++ [s]) ++ c :: slack).
    assert (L1 : length d1 = cap).
    { unfold d1. rewrite !app_length, !map_length. simpl. simpl in Hl. lia. }
    destruct (clear_ok (cap - (length a + S (length b))) d1 (length a + S (length b))) as (d2 & E2 & L2 & F2); [lia|].
    rewrite E2. cbn [obind]. eexists; split; [reflexivity|].
    unfold vrel; cbn [v_count v_data v_capacity]. rewrite app_length. split; [lia|].
    apply (f_equal (firstn (length a + length b))) in F2. rewrite !firstn_firstn in F2.
    rewrite Nat.min_l in F2 by lia.
    destruct (app_prefix d2 (map Some (a ++ b)) (length a + length b)) as (s2 & -> & Ls2).
    + rewrite F2. unfold d1. rewrite <- !app_assoc, map_app, app_assoc.
      rewrite firstn_app. rewrite (firstn_all2 (n := length a + length b)) by (rewrite app_length, !map_length; lia).
      rewrite app_length, !map_length, Nat.sub_diag, firstn_O, app_nil_r. reflexivity.
    + rewrite map_length, app_length. reflexivity.
    + lia.
    + exists s2. split; [reflexivity|]. lia.
  - subst cnt. rewrite (search_miss0 p l slack E). reflexivity.
Qed.

Lemma find_none {A} (p : A -> bool) l : existsb p l = false -> find p l = None.
Proof.
  induction l as [|x l IH]; cbn [existsb find]; intros H; [reflexivity|].
  apply orb_false_iff in H as [-> H]. auto.
Qed.

Lemma find_ok v l p : vrel v l -> rtVector_Find v p = Ok (or_null (find p l)).
Proof.
  intros [Hc Hd]. unfold rtVector_Find. destruct v as [d cap cnt]; cbn [v_data v_capacity v_count] in *.
  destruct d as [d|].
  2: { destruct Hd as [-> _]. subst. reflexivity. }
  destruct Hd as (slack & -> & Hl & Hs). subst cnt.
  destruct (existsb p l) eqn:E.
  - destruct (first_split p l E) as (a & x & b & -> & Hx & Ha & _ & ->).
    rewrite app_length. cbn [length]. rewrite (search_hit0 p a x b slack Hx Ha). cbn [obind or_null].
    apply cell_use_app. rewrite nth_error_app2, Nat.sub_diag by lia. reflexivity.
  - rewrite (search_miss0 p l slack E), find_none by auto. reflexivity.
Qed.

Lemma at_ok v l i : vrel v l -> rtVector_At v i = Ok (or_null (nth_error l i)).
Proof.
  intros [Hc Hd]. unfold rtVector_At. destruct v as [d cap cnt]; cbn [v_data v_capacity v_count] in *. subst cnt.
  destruct (Nat.leb_spec (length l) i) as [H|H].
  - apply nth_error_None in H. rewrite H. reflexivity.
  - destruct d as [d|].
    + destruct Hd as (slack & -> & _). destruct (nth_error l i) as [x|] eqn:E.
      * apply cell_use_app; auto.
      * apply nth_error_None in E. lia.
    + destruct Hd as [-> _]. simpl in H. lia.
Qed.

Lemma step_ok v l o : vrel v l ->
  exists v', vec_step v o = Ok (v', snd (list_step l o)) /\ vrel v' (fst (list_step l o)).
Proof.
  intros R. destruct o as [x|x|p|i| |p|p]; cbn [vec_step list_step fst snd].
  - destruct (push_ok v l x R) as (v' & -> & R'). exists v'. auto.
  - unfold rtVector_RemoveItem. pose proof (removeby_ok v l (Z.eqb x) R) as H.
    destruct (existsb (Z.eqb x) l); [destruct H as (v' & -> & R')|rewrite H]; eexists; split; try reflexivity; auto.
  - pose proof (removeby_ok v l p R) as H.
    destruct (existsb p l); [destruct H as (v' & -> & R')|rewrite H]; eexists; split; try reflexivity; auto.
  - rewrite (at_ok v l i R). exists v. auto.
  - exists v. destruct R as [Hc Hd]. unfold rtVector_Size. rewrite Hc. split; [reflexivity|]. split; auto.
  - rewrite (find_ok v l p R). exists v. auto.
  - unfold rtVector_HasItem. rewrite (find_ok v l p R). exists v. auto.
Qed.

Lemma run_ok ops : forall v l, vrel v l -> vec_run v ops = Ok (list_run l ops).
Proof.
  induction ops as [|o ops IH]; intros v l R; [reflexivity|].
  cbn [vec_run list_run]. destruct (step_ok v l o R) as (v' & -> & R').
  destruct (list_step l o) as [l' r]. cbn [obind fst snd] in *.
  rewrite (IH v' l' R'). reflexivity.
Qed.
