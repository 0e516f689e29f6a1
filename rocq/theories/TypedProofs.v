(** Facts about typed reads. *)
From Verif Require Import Common Bytes Value TypedModel TypedSpec.
Local Open Scope Z_scope.

Lemma poke_low : forall b n d, 0 <= b -> (poke b n d) mod 2 ^ b = n mod 2 ^ b.
Proof. intros b n d H. unfold poke. rewrite Z.mod_add by (apply Z.pow_nonzero; lia). apply Z.mod_mod. apply Z.pow_nonzero; lia. Qed.

Lemma peek_poke : forall k n d, fits k n -> peek (kbits k) (ksigned k) (poke (kbits k) n d) = n.
Proof.
  intros k n d F. unfold peek. rewrite poke_low by (destruct k; cbn; lia).
  destruct k; cbn [kbits ksigned andb fits] in *;
    try (rewrite Z.mod_small; [reflexivity|]; try (destruct F; subst); change (2 ^ 8) with 256; change (2 ^ 16) with 65536; change (2 ^ 32) with 4294967296; change (2 ^ 64) with 18446744073709551616; lia).
  1,2: change (2 ^ (8 - 1)) with 128; change (2 ^ 8) with 256.
  3: change (2 ^ (16 - 1)) with 32768; change (2 ^ 16) with 65536.
  4: change (2 ^ (32 - 1)) with 2147483648; change (2 ^ 32) with 4294967296.
  5: change (2 ^ (64 - 1)) with 9223372036854775808; change (2 ^ 64) with 18446744073709551616.
  all: match goal with F : ?lo <= ?x < ?hi |- context [?x mod ?m] =>
    assert (E : x mod m = if x <? 0 then x + m else x)
      by (destruct (Z.ltb_spec x 0); [symmetry; apply Z.mod_unique with (q := -1); lia | apply Z.mod_small; lia]);
    rewrite E; destruct (Z.ltb_spec x 0) end;
    match goal with |- (if ?b then _ else _) = _ => destruct b eqn:?; lia end.
Qed.

(** Reading a value right after a setting. *)
Lemma read_after : forall c s k, fine s -> get_ex k (Some (set c s)) = Ok (read_says (Some s) k).
Proof.
  intros c s k F. unfold get_ex. destruct s as [k' n|q t|q t]; cbn [set read_says].
  - unfold set_kind; cbn [c_type c_d]. destruct (same k' k) as [-> |N].
    + rewrite Z.eqb_refl, peek_poke by exact F. reflexivity.
    + replace (ktype k' =? ktype k) with false; [reflexivity|]. destruct k', k; try reflexivity; congruence.
  - destruct t as [t|]; cbn [set_string]; unfold set_buffer; try destruct (texty c && _); cbn [c_type]; destruct k; reflexivity.
  - destruct t as [t|]; cbn [set_bytes]; unfold set_buffer; try destruct (texty c && _); cbn [c_type]; destruct k; reflexivity.
Qed.

Lemma peek64_poke64 : forall n d, 0 <= n < 18446744073709551616 -> peek 64 false (poke 64 n d) = n.
Proof. intros n d H. apply (peek_poke KUInt64 n d H). Qed.

Lemma buffer_held : forall q b ty c, 0 < q < 18446744073709551616 -> (ty = RBUS_STRING \/ ty = RBUS_BYTES) ->
  get_bytes (Some (set_buffer q b ty c)) = Ok (Some b, Some (Z.of_nat (length b))) /\ c_type (set_buffer q b ty c) = ty.
Proof.
  intros q b ty c Q T. unfold set_buffer. destruct (texty c && negb (peek 64 false (c_d c) =? 0)) eqn:E; split; try reflexivity;
    unfold get_bytes; cbn [c_d c_buf].
  - apply andb_prop in E. destruct E as [_ E]. destruct (peek 64 false (c_d c) =? 0); [discriminate|].
    unfold texty; cbn [c_type]. destruct T as [-> | ->]; reflexivity.
  - rewrite peek64_poke64 by lia. destruct (Z.eqb_spec q 0); [lia|].
    unfold texty; cbn [c_type]. destruct T as [-> | ->]; reflexivity.
Qed.

Lemma freed_zero : forall ty c b, peek 64 false (c_d (mkCell ty (c_d (free_internal c)) b)) = 0.
Proof. intros ty c b. cbn [c_d free_internal]. apply peek64_poke64. lia. Qed.

Lemma kind_not_text : forall k n c, texty (set_kind k n c) = false.
Proof. intros k n c. unfold texty, set_kind; cbn [c_type]. destruct k; reflexivity. Qed.

Lemma string_after : forall c s, fine s -> get_string_ex (Some (set c s)) = Ok (string_says (Some s)).
Proof.
  intros c s F. destruct s as [k n|q t|q t]; cbn [set string_says fine] in *.
  - unfold get_string_ex. rewrite kind_not_text. reflexivity.
  - destruct t as [t|]; cbn [set_string].
    + destruct (buffer_held q (t ++ [0]) RBUS_STRING c (proj1 F) (or_introl eq_refl)) as [G T].
      unfold get_string_ex, texty, get_string. rewrite T, G. cbn. rewrite app_length; cbn [length].
      repeat f_equal; lia.
    + unfold get_string_ex, get_string, get_bytes. rewrite freed_zero. reflexivity.
  - destruct t as [t|]; cbn [set_bytes].
    + destruct (buffer_held q t RBUS_BYTES c (proj1 F) (or_intror eq_refl)) as [G T].
      unfold get_string_ex, texty, get_string. rewrite T, G. reflexivity.
    + unfold get_string_ex, get_string, get_bytes. rewrite freed_zero. reflexivity.
Qed.

Lemma bytes_after : forall c s, fine s -> get_bytes_ex (Some (set c s)) = Ok (bytes_says (Some s)).
Proof.
  intros c s F. destruct s as [k n|q t|q t]; cbn [set bytes_says fine] in *.
  - unfold get_bytes_ex. rewrite kind_not_text. reflexivity.
  - destruct t as [t|]; cbn [set_string].
    + destruct (buffer_held q (t ++ [0]) RBUS_STRING c (proj1 F) (or_introl eq_refl)) as [G T].
      unfold get_bytes_ex, texty. rewrite T, G. cbn. rewrite app_length; cbn [length].
      repeat f_equal; lia.
    + unfold get_bytes_ex, get_bytes. rewrite freed_zero. reflexivity.
  - destruct t as [t|]; cbn [set_bytes].
    + destruct (buffer_held q t RBUS_BYTES c (proj1 F) (or_intror eq_refl)) as [G T].
      unfold get_bytes_ex, texty. rewrite T, G. reflexivity.
    + unfold get_bytes_ex, get_bytes. rewrite freed_zero. reflexivity.
Qed.

Lemma sets_snoc : forall l x, sets (l ++ [x]) = set (sets l) x.
Proof. intros l x. unfold sets. rewrite fold_left_app. reflexivity. Qed.

Lemma fine_last : forall l x, Forall fine (l ++ [x]) -> fine x.
Proof. intros l x H. apply Forall_app in H. destruct H as [_ H]. inversion H; assumption. Qed.

(** What the union holds as a pointer, after a number was written. *)
Lemma kind_pointer : forall k n c, fits k n -> (peek 64 false (c_d (set_kind k n c)) =? 0) = (n mod 18446744073709551616 =? 0).
Proof.
  intros k n c F. unfold set_kind; cbn [c_d free_internal]. unfold peek; cbn [andb].
  change (2 ^ 64) with 18446744073709551616.
  assert (W : 0 <= n mod 2 ^ kbits k < 2 ^ kbits k) by (apply Z.mod_pos_bound; apply Z.pow_pos_nonneg; destruct k; cbn; lia).
  assert (Z0 : (n mod 2 ^ kbits k = 0) <-> (n = 0) \/ k = KTime /\ n mod 2 ^ 384 = 0).
  { split; [|intros [-> |[-> E]]; [apply Z.mod_0_l; apply Z.pow_nonzero; destruct k; cbn; lia|exact E]].
    intros E. pose proof (peek_poke k n 0 F) as P. unfold peek in P. rewrite poke_low in P by (destruct k; cbn; lia). rewrite E in P.
    left. rewrite <- P. destruct k; reflexivity. }
  destruct (Z.eq_dec (kbits k) 384) as [T|T].
  - assert (k = KTime) by (destruct k; cbn in T; congruence). subst k. cbn [kbits] in *. clear Z0.
    f_equal. unfold poke at 1.
    assert (E : exists m, 2 ^ 384 = m * 18446744073709551616) by (exists (2 ^ 320); reflexivity).
    destruct E as [m E]. rewrite E at 3. rewrite Z.mul_assoc, Z.mod_add by lia.
    rewrite Z.mod_small with (b := 2 ^ 384); [reflexivity|exact F].
  - set (d := poke 64 0 (c_d c)).
    assert (D : exists e, d = e * 18446744073709551616).
    { exists (c_d c / 2 ^ 64). unfold d, poke. rewrite Z.mod_0_l by (apply Z.pow_nonzero; lia). reflexivity. }
    destruct D as [e D].
    assert (E : exists m, 0 < m /\ 18446744073709551616 = m * 2 ^ kbits k).
    { destruct k; cbn [kbits] in *; try congruence; [> exists (2 ^ 56)| exists (2 ^ 56)| exists (2 ^ 56)| exists (2 ^ 56)| exists (2 ^ 56)| exists (2 ^ 48)| exists (2 ^ 48)| exists (2 ^ 32)| exists (2 ^ 32)| exists 1| exists 1| exists (2 ^ 32)| exists 1| exists 1| exists 1]; split; try reflexivity. }
    destruct E as (m & M & E).
    assert (Q : poke (kbits k) n d mod 18446744073709551616 = n mod 2 ^ kbits k).
    { unfold poke. rewrite D, E.
      replace (e * (m * 2 ^ kbits k) / 2 ^ kbits k * 2 ^ kbits k) with (e * (m * 2 ^ kbits k)).
      - rewrite Z.mod_add by nia. apply Z.mod_small. nia.
      - rewrite Z.mul_assoc, Z.div_mul by lia. lia. }
    rewrite Q.
    assert (N : n mod 18446744073709551616 = 0 <-> n = 0).
    { split; [|intros ->; reflexivity]. intros H. apply Z.mod_divide in H; [|lia]. destruct H as [x H].
      assert (-9223372036854775808 <= n < 18446744073709551616) by (destruct k; cbn [fits kbits] in *; try lia; congruence). lia. }
    destruct (Z.eqb_spec (n mod 2 ^ kbits k) 0) as [A|A], (Z.eqb_spec (n mod 18446744073709551616) 0) as [B|B]; try reflexivity.
    + apply Z0 in A. destruct A as [A|[A _]]; [tauto|subst k; cbn in T; congruence].
    + exfalso. apply A. apply Z0. left. tauto.
Qed.

(** Properties of an object. *)
Lemma bytes_eqb_spec : forall a b, reflect (a = b) (bytes_eqb a b).
Proof.
  induction a as [|x a IH]; intros [|y b]; cbn; try (constructor; congruence).
  destruct (Z.eqb_spec x y) as [-> |N]; cbn; [|constructor; congruence].
  destruct (IH b) as [-> |N]; constructor; congruence.
Qed.

Lemma get_set_property : forall ps n c m, get_property (set_property_value ps n c) m = if bytes_eqb n m then Some (Some c) else get_property ps m.
Proof.
  induction ps as [|(x, v) ps IH]; intros n c m; cbn [set_property_value get_property].
  - reflexivity.
  - destruct (bytes_eqb_spec x n) as [-> |N]; cbn [get_property].
    + destruct (bytes_eqb n m); reflexivity.
    + destruct (bytes_eqb_spec x m) as [-> |M].
      * destruct (bytes_eqb_spec n m); [congruence|reflexivity].
      * apply IH.
Qed.

Lemma object_other : forall b ps n, ~ In n (map fst b) -> get_property (fold_left object_set b ps) n = get_property ps n.
Proof.
  induction b as [|(m, s) b IH]; intros ps n H; cbn [fold_left]; [reflexivity|].
  rewrite IH by (intros K; apply H; right; exact K). unfold object_set; cbn [fst snd]. rewrite get_set_property.
  destruct (bytes_eqb_spec m n) as [-> |N]; [exfalso; apply H; left; reflexivity|reflexivity].
Qed.

Lemma object_last : forall l n s, last_for l n s -> get_property (object_sets l) n = match s with None => None | Some x => Some (Some (set init x)) end.
Proof.
  intros l n [x|] H; cbn [last_for] in H; unfold object_sets.
  - destruct H as (a & b & -> & H). rewrite fold_left_app. cbn [fold_left]. rewrite object_other by exact H.
    unfold object_set at 1; cbn [fst snd]. rewrite get_set_property. destruct (bytes_eqb_spec n n); [reflexivity|congruence].
  - rewrite object_other by exact H. reflexivity.
Qed.

(** Copies by type, length and contents. *)
Lemma kind_length : forall k n c, flat (SKind k n) -> get_l (set_kind k n c) = Ok (kbits k / 8) /\ get_v (set_kind k n c) = Ok (inr (c_d (set_kind k n c))) /\ 8 * (kbits k / 8) = kbits k.
Proof.
  intros k n c F. unfold get_l, get_v. rewrite kind_not_text. unfold set_kind; cbn [c_type c_d].
  destruct k; cbn [flat] in F; try contradiction; repeat split.
Qed.

Lemma peek_mod : forall k d e, d mod 2 ^ kbits k = e mod 2 ^ kbits k -> peek (kbits k) (ksigned k) d = peek (kbits k) (ksigned k) e.
Proof. intros k d e H. unfold peek. rewrite H. reflexivity. Qed.

Lemma copy_kind : forall q k n c c', fits k n -> flat (SKind k n) -> exists e, copy q (set_kind k n c) c' = Ok e /\
  c_type e = ktype k /\ peek (kbits k) (ksigned k) (c_d e) = n /\ texty e = false.
Proof.
  intros q k n c c' F G. destruct (kind_length k n c G) as (L & V & B). unfold copy. rewrite L, V. cbn [obind].
  unfold set_tlv. cbn [c_type set_kind]. change (c_type (set_kind k n c)) with (ktype k).
  replace (ktype k =? RBUS_STRING) with false by (destruct k; reflexivity). replace (ktype k =? RBUS_BYTES) with false by (destruct k; reflexivity).
  cbn [obind]. rewrite B.
  set (e := mkCell (ktype k) _ _).
  assert (T : texty e = false) by (unfold texty, e; cbn [c_type]; destruct k; reflexivity).
  assert (GL : get_l e = Ok (kbits k / 8)).
  { unfold get_l. rewrite T. unfold e; cbn [c_type]. destruct k; cbn [flat] in G; try contradiction; reflexivity. }
  rewrite GL. cbn [obind]. rewrite Z.eqb_refl. exists e. repeat split; [|exact T].
  unfold e; cbn [c_d]. transitivity (peek (kbits k) (ksigned k) (poke (kbits k) n 0)); [apply peek_mod|apply peek_poke; exact F].
  rewrite !poke_low by (destruct k; cbn; lia). unfold set_kind; cbn [c_d]. apply poke_low. destruct k; cbn; lia.
Qed.

Lemma cstr_end : forall t, is_cstr t = true -> c_str (t ++ [0]) = Some t.
Proof.
  induction t as [|x t IH]; intros H; [reflexivity|]. cbn [is_cstr forallb] in H. apply andb_prop in H. destruct H as [H1 H2].
  cbn [app c_str]. destruct (Z.eqb_spec x 0); [lia|]. rewrite IH by exact H2. reflexivity.
Qed.

Lemma buffer_len : forall q b ty c, 0 < q < 18446744073709551616 -> (ty = RBUS_STRING \/ ty = RBUS_BYTES) ->
  get_l (set_buffer q b ty c) = Ok (Z.of_nat (length b)) /\ get_v (set_buffer q b ty c) = Ok (inl b).
Proof.
  intros q b ty c Q T. destruct (buffer_held q b ty c Q T) as [G Y]. unfold get_bytes in G. unfold get_l, get_v.
  assert (X : texty (set_buffer q b ty c) = true) by (unfold texty; rewrite Y; destruct T as [-> | ->]; reflexivity).
  rewrite X in *. destruct (peek 64 false (c_d (set_buffer q b ty c)) =? 0); [discriminate|].
  destruct (c_buf (set_buffer q b ty c)) as [w|]; [|discriminate]. injection G as -> _. split; reflexivity.
Qed.

Lemma copy_flat : forall q s c c', 0 < q < 18446744073709551616 -> fine s -> flat s -> exists e, copy q (set c s) c' = Ok e /\
  (forall k, get_ex k (Some e) = Ok (read_says (Some s) k)) /\ get_string_ex (Some e) = Ok (string_says (Some s)) /\ get_bytes_ex (Some e) = Ok (bytes_says (Some s)).
Proof.
  intros q s c c' Q F G. destruct s as [k n|p t|p t]; cbn [set].
  - cbn [fine] in F. destruct (copy_kind q k n c c' F G) as (e & C & T & P & X). exists e. split; [exact C|]. repeat split.
    + intros k'. unfold get_ex. rewrite T. cbn [read_says]. destruct (same k k') as [<- |N].
      * rewrite Z.eqb_refl, P. reflexivity.
      * replace (ktype k =? ktype k') with false; [reflexivity|]. destruct k, k'; try reflexivity; congruence.
    + unfold get_string_ex. rewrite X. reflexivity.
    + unfold get_bytes_ex. rewrite X. reflexivity.
  - destruct t as [t|]; [|cbn in G; congruence]. destruct F as (Q' & F & F'). cbn [set_string].
    destruct (buffer_held p (t ++ [0]) RBUS_STRING c Q' (or_introl eq_refl)) as [_ Y].
    destruct (buffer_len p (t ++ [0]) RBUS_STRING c Q' (or_introl eq_refl)) as [L V].
    exists (set c' (SString q (Some t))). unfold copy. rewrite L, V, Y. cbn [obind]. unfold set_tlv. rewrite Z.eqb_refl, cstr_end by exact F.
    cbn [obind set set_string].
    destruct (buffer_len q (t ++ [0]) RBUS_STRING c' Q (or_introl eq_refl)) as [L' _]. rewrite L'. cbn [obind]. rewrite Z.eqb_refl. split; [reflexivity|].
    assert (X : fine (SString q (Some t))) by (split; [exact Q|split; assumption]).
    change (set_buffer q (t ++ [0]) RBUS_STRING c') with (set c' (SString q (Some t))).
    split; [intros k; rewrite read_after by exact X; reflexivity|]. rewrite string_after, bytes_after by exact X. split; reflexivity.
  - destruct t as [t|]; [|cbn in G; congruence]. destruct F as (Q' & F & F'). cbn [set_bytes].
    destruct (buffer_held p t RBUS_BYTES c Q' (or_intror eq_refl)) as [_ Y].
    destruct (buffer_len p t RBUS_BYTES c Q' (or_intror eq_refl)) as [L V].
    exists (set c' (SBytes q (Some t))). unfold copy. rewrite L, V, Y. cbn [obind]. unfold set_tlv.
    change (RBUS_BYTES =? RBUS_STRING) with false. cbn iota. rewrite Z.eqb_refl, Z.leb_refl, Nat2Z.id, firstn_all.
    cbn [obind set set_bytes].
    destruct (buffer_len q t RBUS_BYTES c' Q (or_intror eq_refl)) as [L' _]. rewrite L'. cbn [obind]. rewrite Z.eqb_refl. split; [reflexivity|].
    assert (X : fine (SBytes q (Some t))) by (split; [exact Q|split; assumption]).
    change (set_buffer q t RBUS_BYTES c') with (set c' (SBytes q (Some t))).
    split; [intros k; rewrite read_after by exact X; reflexivity|]. rewrite string_after, bytes_after by exact X. split; reflexivity.
Qed.
