(** What the invariant of DirectProofs gives: requests, events, and the list of the provider. *)
From Coq Require Import String Lia ZifyBool.
From Verif Require Import VecFacts Common CommonFacts Bytes HeaderModel HeaderSpec HeaderProofs MsgModel MsgSpec MsgProofs VecList LinkModel LinkProofs DirectModel DirectSpec DirectProofs.
Local Open Scope list_scope.
Local Open Scope Z_scope.
Local Opaque address copied.

Lemma ok_pair_inv {A B} (a c : A) (b d : B) : @Ok unit _ (a, b) = Ok (c, d) -> a = c /\ b = d.
Proof. intros e. split; congruence. Qed.

(** ** how a step changes the list *)
Definition same (e f : entry) : Prop := n_addr f = n_addr e /\ n_consumer f = n_consumer e /\ n_dml f = n_dml e /\ n_handler f = n_handler e.
Lemma same_refl e : same e e.
Proof. repeat split. Qed.
Lemma update_items E s c d s1 : Inv E s -> (length c <= 255)%nat -> (length d <= 255)%nat -> update_listener s c d = Ok s1 ->
  threads s1 = threads s /\ peers s1 = peers s /\ alive s1 = alive s /\ conns s1 = conns s /\ found s1 = found s /\
  ((exists p e, item s p e /\ n_consumer e = c /\ n_dml e = d /\ forall q f, item s1 q f <-> item s q f /\ q <> p) \/
   (s1 = s /\ forall p e, item s p e -> ~ (n_consumer e = c /\ n_dml e = d))).
Proof.
  intros I Lc Ld U. unfold update_listener in U.
  destruct (first_item_spec (heap s) (for_both d c) (vec s) (v_valid E s I)) as (o & F & S). rewrite F in U. cbn [obind] in U.
  destruct o as [p|]; injection U as <-; cbn [heap vec threads peers alive conns found]; repeat (split; [reflexivity|]).
  - left. destruct S as (Ip & e & De & Q). apply andb_prop in Q. destruct Q as [Q1 Q2]. destruct (item_here E s p e I (conj Ip De)) as (L1 & L2 & _).
    apply short_eq in Q1; [|exact L2|exact Ld]. apply short_eq in Q2; [|exact L1|exact Lc]. exists p, e. split; [now split|]. split; [exact Q2|]. split; [exact Q1|].
    assert (Lt : (p < length (heap s))%nat) by now apply deref_lt in De.
    intros q f. unfold item. cbn [vec heap]. rewrite drop_item_in by apply (v_nodup E s I). rewrite deref_store by exact Lt.
    destruct (Nat.eqb_spec q p); [split; [intros [[_ X] _]|intros [_ X]]; contradiction|tauto].
  - right. split; [reflexivity|]. intros p e [Ip D] [Ec Ed]. pose proof (S p e Ip D) as Q. unfold for_both in Q.
    rewrite Ec, Ed, !strneq_eq, !bytes_eqb_refl in Q by lia. discriminate.
Qed.
Lemma start_items E s a c d k s1 : Inv E s -> (length c <= 255)%nat -> (length d <= 255)%nat -> start_listener s a c d k = Ok s1 ->
  (exists more, threads s1 = threads s ++ more) /\ peers s1 = peers s /\ alive s1 = alive s /\ conns s1 = conns s /\ found s1 = found s /\
  exists e0, n_consumer e0 = c /\ n_dml e0 = d /\ forall q f, item s1 q f <-> item s q f \/ (q = length (heap s) /\ f = e0).
Proof.
  intros I Lc Ld. unfold start_listener. destruct (first_item_spec (heap s) (at_addr a) (vec s) (v_valid E s I)) as (o & F & S). rewrite F. cbn [obind].
  assert (W : exists i, match o with None => Ok no_info | Some p => do e <- deref (heap s) p ; Ok (n_info e) end = @Ok unit info i).
  { destruct o as [p|]; [destruct S as (_ & e & D & _); rewrite D|]; cbn [obind]; eauto. }
  destruct W as [i W]. rewrite W. cbn [obind]. intros R. injection R as <-. cbn [heap vec threads peers alive conns found].
  split; [destruct o; eexists; [symmetry; apply app_nil_r|reflexivity]|]. repeat (split; [reflexivity|]).
  eexists (mkEntry (copied a) (copied c) (copied d) k i). cbn [n_consumer n_dml]. split; [now apply copied_id|]. split; [now apply copied_id|].
  assert (V1 : forall p, In p (vec s) -> (p < length (heap s))%nat).
  { intros p Ip. destruct (v_valid E s I p Ip) as [e D]. now apply deref_lt in D. }
  intros q f. unfold item. cbn [heap vec]. rewrite deref_app, in_app_iff. cbn [In]. destruct (Nat.eqb_spec q (length (heap s))) as [->|N].
  - split; [intros [_ X]; right; split; congruence|]. intros [[X _]|[_ ->]]; [specialize (V1 _ X); lia|]. split; [right; now left|reflexivity].
  - split; [intros [[X|[X|[]]] D]; [left; now split|congruence]|]. intros [[X D]|[X _]]; [split; [now left|exact D]|contradiction].
Qed.
Lemma tell_items E s fd c h : Inv E s -> (length c <= 255)%nat -> tell_info (heap s) (mkInfo fd 1 (copied c)) (vec s) = Ok h ->
  (forall p e, item s p e -> exists f, (In p (vec s) /\ deref h p = Ok f) /\ same e f) /\
  (forall p f, In p (vec s) -> deref h p = Ok f -> exists e, item s p e /\ same e f).
Proof.
  intros I Lc T. rewrite (copied_id c) in T by exact Lc.
  destruct (tell_info_spec (mkInfo fd 1 c) (vec s) (heap s) (v_valid E s I)) as (h' & T' & L & K & _). rewrite T in T'. injection T' as <-.
  assert (Sm : forall e, same e (told (mkInfo fd 1 c) e)) by (intros e; unfold told; destruct (strneq 256 _ _); repeat split).
  split.
  - intros p e [Ip D]. destruct (K p Ip) as (f & A & B). assert (f = e) by congruence. subst f. exists (told (mkInfo fd 1 c) e). split; [now split|apply Sm].
  - intros p f Ip D. destruct (K p Ip) as (e & A & B). exists e. split; [now split|]. assert (f = told (mkInfo fd 1 c) e) by congruence. subst f. apply Sm.
Qed.
Lemma drop_items E s a h v : Inv E s -> drop_addr (heap s) a (vec s) = Ok (h, v) ->
  forall q f, (In q v /\ deref h q = Ok f) <-> item s q f /\ n_addr f <> a.
Proof.
  intros I Dr. destruct (drop_addr_spec a (vec s) (heap s) (v_nodup E s I) (v_valid E s I)) as (h' & v' & Dr' & Nd & L & Iv & K).
  rewrite Dr in Dr'. injection Dr' as <- <-.
  assert (Ad : forall q f, item s q f -> at_addr a f = false <-> n_addr f <> a).
  { intros q f It. destruct (item_here E s q f I It) as (_ & _ & L1). unfold at_addr. rewrite strneq_eq by lia. apply bytes_eqb_neq. }
  intros q f. rewrite Iv. split.
  - intros [[Iq (f' & D & Z)] D2]. assert (In q v) by (apply Iv; split; [exact Iq|now exists f']). rewrite K in D2 by now right.
    assert (f' = f) by congruence. subst f'. split; [now split|]. now apply (Ad q f).
  - intros [[Iq D] N]. assert (X : at_addr a f = false) by (apply (Ad q f); [now split|exact N]). split; [split; [exact Iq|now exists f]|].
    rewrite K; [exact D|]. right. apply Iv. split; [exact Iq|now exists f].
Qed.

(** ** messages *)
Lemma text_field s : text_ok s -> field_ok (FStr (Some s)) = true.
Proof. intros [A B]. cbn. rewrite A. cbn. lia. Qed.
Lemma same_bytes out a b c : size_ok out -> m_data (set_meta_info out a b c) = m_data (set_meta_info (msg_from_bytes (m_data out)) a b c).
Proof. intros S. unfold size_ok in S. rewrite !set_meta_data; unfold msg_size; cbn [msg_from_bytes m_data]; try lia. reflexivity. Qed.
Lemma request_read method tp ts out : text_ok method -> text_ok tp -> text_ok ts -> size_ok out ->
  exists m a b, get_meta_info (msg_from_bytes (request_bytes method tp ts out)) = Ok (Some method, a, b, m) /\ carries m out.
Proof.
  intros A B C S. unfold request_bytes. rewrite same_bytes by exact S.
  destruct (call_metadata (m_data out) (Some method) (Some tp) (Some ts) S (text_field _ A) (text_field _ B) (text_field _ C)) as (m & G & R & K).
  exists m, (Some tp), (Some ts). cbn [text] in G. split; [exact G|]. now split.
Qed.
Lemma response_read r : size_ok r -> exists m, read_response (response_bytes r) = Ok (inl m) /\ carries m r.
Proof.
  intros S. unfold size_ok in S. unfold read_response, response_bytes. rewrite set_meta_data by (unfold msg_size; lia). unfold msg_size.
  set (fs := all_bytes (meta_fields (Some METHOD_RESPONSE) None None)).
  unfold msg_from_bytes. rewrite meta_read_position by (unfold fs; cbn; lia). set (tr := 210 :: be32 _).
  assert (F : field_ok (FStr (Some METHOD_RESPONSE)) = true) by reflexivity.
  pose proof (read_field_spec (m_data r) (FStr (Some METHOD_RESPONSE)) (field_bytes (FStr None) ++ field_bytes (FStr None) ++ tr) 0 F) as R.
  cbn [read_field] in R. unfold at_pos in R.
  assert (X : m_data r ++ fs ++ tr = m_data r ++ field_bytes (FStr (Some METHOD_RESPONSE)) ++ field_bytes (FStr None) ++ field_bytes (FStr None) ++ tr).
  { unfold fs, meta_fields, all_bytes. cbn [flat_map]. now rewrite app_nil_r, <- !app_assoc. }
  rewrite X. destruct (get_string _) as [[x y]|e|]; try discriminate. cbn [map_res] in R. apply ok_pair_inv in R. destruct R as [R Ey]. subst y.
  cbn [read_back] in R. injection R as R. assert (x = METHOD_RESPONSE) by (cbn in R |- *; congruence). subst x.
  change (strneq 64 METHOD_RESPONSE METHOD_RESPONSE) with true.
  eexists. split; [reflexivity|]. split; [reflexivity|]. cbn [end_meta_read m_data]. eexists. rewrite <- app_assoc. reflexivity.
Qed.
Lemma copy_topic s : is_cstr s = true -> (length s <= 255)%nat -> cstring (copy_array (topic_array s)) = Some s.
Proof. intros C L. unfold copy_array. destruct (cstring_array s C) as (K & _); [lia|]. rewrite K. apply cstring_array; [exact C|lia]. Qed.

(** ** requests *)
Lemma serve_found E s c d fd : Inv E s -> connected s c d fd ->
  fits_consumer E c /\ (length d <= 255)%nat /\ exists p e, first_item (heap s) (for_dml d) (vec s) = Ok (Some p) /\ deref (heap s) p = Ok e /\ n_handler e = owner E d.
Proof.
  intros I [Id C]. destruct (v_open E s I c d Id) as (Fc & Fd & p0 & e0 & [Ip0 D0] & Ec & Ed). split; [exact Fc|]. split; [exact Fd|].
  destruct (first_item_spec (heap s) (for_dml d) (vec s) (v_valid E s I)) as (o & F & S). destruct o as [p|].
  - destruct S as (Ip & e & D & Q). exists p, e. split; [exact F|]. split; [exact D|].
    destruct (item_here E s p e I (conj Ip D)) as (_ & L & _). apply short_eq in Q; [|exact L|exact Fd].
    destruct (v_item E s I p e (conj Ip D)) as (_ & H & _). now rewrite H, Q.
  - exfalso. pose proof (S p0 e0 Ip0 D0) as Q. unfold for_dml in Q. unfold fits_name in Fd. rewrite Ed, strneq_eq, bytes_eqb_refl in Q by lia. discriminate.
Qed.
Lemma request_served E s c d fd method tp ts sequence out :
  reach E s -> connected s c d fd -> text_ok method -> text_ok tp -> text_ok ts -> is_cstr c = true -> size_ok out ->
  (forall m, carries m out -> exists r, hs E (owner E d) d (Some method) m = Answer r /\ size_ok r) ->
  exists m r h bytes m', step E s (Request c d method tp ts sequence out) = Ok (s, [Ran (mkCall (owner E d) d (Some method) m); Replied fd h bytes]) /\
    carries m out /\ hs E (owner E d) d (Some method) m = Answer r /\
    read_response bytes = Ok (inl m') /\ carries m' r /\
    h_sequence_number h = sequence /\ cstring (h_topic h) = Some c /\ h_flags h = rtMessageFlags_Response /\ h_payload_length h = Z.of_nat (length bytes).
Proof.
  intros R Cn Tm Tp Ts Cc So Ha. pose proof (reach_Inv E s R) as I. destruct (serve_found E s c d fd I Cn) as (Fc & Ld & p & e & F & D & H).
  destruct (request_read method tp ts out Tm Tp Ts So) as (m & a & b & G & Cm). destruct (Ha m Cm) as (r & Hr & Sr).
  destruct (response_read r Sr) as (m' & Rr & Cr).
  assert (Sd : serve_direct E s (copied d) (request_bytes method tp ts out) = Ok (response_bytes r, [mkCall (owner E d) d (Some method) m])).
  { rewrite (copied_id d) by exact Ld. unfold serve_direct. rewrite G, F. cbn [obind]. rewrite D. cbn [obind]. rewrite H, Hr. reflexivity. }
  destruct Cn as [Id C]. cbn [step]. rewrite C. cbv zeta. rewrite Sd. cbn [obind map app].
  exists m, r. eexists _, (response_bytes r), m'. split; [reflexivity|]. split; [exact Cm|]. split; [exact Hr|]. split; [exact Rr|]. split; [exact Cr|].
  split; [reflexivity|]. split; [|split; reflexivity]. cbn [reply_header h_topic make_header h_reply_topic]. apply copy_topic; [exact Cc|]. now apply (fits_len E).
Qed.
Lemma same_as_broker E s c d fd bytes : reach E s -> connected s c d fd ->
  (forall method m, exists r, hs E (owner E d) d method m = Answer r) ->
  serve_direct E s d bytes = match serve_broker (hs E) (owner E d) d bytes with Ok (Some r, cs) => Ok (r, cs) | _ => UB end.
Proof.
  intros R Cn Ha. pose proof (reach_Inv E s R) as I. destruct (serve_found E s c d fd I Cn) as (Fc & Ld & p & e & F & D & H).
  unfold serve_direct, serve_broker. destruct (get_meta_info (msg_from_bytes bytes)) as [[[[method a] b] m]|x|]; try reflexivity.
  rewrite F. cbn [obind]. rewrite D. cbn [obind]. rewrite H. destruct (Ha method m) as [r Hr]. rewrite Hr. reflexivity.
Qed.
Lemma request_unknown E s c d fd method tp ts sequence out :
  reach E s -> p_conn (peers s c) = Some fd -> (length d <= 255)%nat -> (forall p e, item s p e -> n_dml e <> d) ->
  text_ok method -> text_ok tp -> text_ok ts -> size_ok out ->
  exists h bytes m' code m2, step E s (Request c d method tp ts sequence out) = Ok (s, [Replied fd h bytes]) /\ read_response bytes = Ok (inl m') /\
    get_int32 m' = Ok (code, m2) /\ code = CORE_UNSUPPORTED.
Proof.
  intros R C Ld No Tm Tp Ts So. pose proof (reach_Inv E s R) as I. destruct (request_read method tp ts out Tm Tp Ts So) as (m & a & b & G & Cm).
  cbn [step]. rewrite C. cbv zeta. rewrite (copied_id d) by exact Ld. unfold serve_direct. rewrite G.
  destruct (first_item_spec (heap s) (for_dml d) (vec s) (v_valid E s I)) as (o & F & S). rewrite F. cbn [obind].
  destruct o as [p|]; [exfalso; destruct S as (Ip & e & D & Q); destruct (item_here E s p e I (conj Ip D)) as (_ & L & _); apply short_eq in Q; [|exact L|exact Ld]; now apply (No p e)|].
  cbn [map app obind]. eexists _, _, _, _, _. split; [reflexivity|]. split; [vm_compute; reflexivity|]. split; [vm_compute; reflexivity|reflexivity].
Qed.

(** ** events *)
Lemma event_found E s d c : Inv E s -> fits_consumer E c -> (length d <= 255)%nat -> exists o s1,
  step E s (PubFind d c) = Ok (s1, match o with Some _ => [] | None => [ByBroker] end) /\ s1 = mkState (heap s) (vec s) (threads s) (peers s) (alive s) (conns s) o /\
  match o with Some p => exists e, item s p e /\ n_consumer e = c /\ n_dml e = d | None => forall p e, item s p e -> ~ (n_consumer e = c /\ n_dml e = d) end.
Proof.
  intros I Fc Ld. cbn [step]. destruct (first_item_spec (heap s) (for_both d c) (vec s) (v_valid E s I)) as (o & F & S). rewrite F. cbn [obind].
  assert (Lc : (length c <= 255)%nat) by now apply (fits_len E).
  exists o. eexists. destruct o as [p|]; (split; [reflexivity|]); (split; [reflexivity|]).
  - destruct S as (Ip & e & De & Q). apply andb_prop in Q. destruct Q as [Q1 Q2]. destruct (item_here E s p e I (conj Ip De)) as (L1 & L2 & _).
    apply short_eq in Q1; [|exact L2|exact Ld]. apply short_eq in Q2; [|exact L1|exact Lc]. exists e. split; [now split|]. now split.
  - intros p e [Ip D] [Ec Ed]. pose proof (S p e Ip D) as Q. unfold for_both in Q. rewrite Ec, Ed, !strneq_eq, !bytes_eqb_refl in Q by lia. discriminate.
Qed.
Lemma event_sent E s c d fd p e raw bytes : Inv E s -> connected s c d fd -> is_cstr c = true -> found s = Some p -> item s p e -> n_consumer e = c -> bytes <> [] ->
  exists h, step E s (PubSend raw bytes) = Ok (mkState (heap s) (vec s) (threads s) (peers s) (alive s) (conns s) None, [EventOn fd h bytes]) /\
    cstring (h_topic h) = Some c /\ h_control_data h = (match raw with Some k => k | None => 1 end) /\ h_payload_length h = Z.of_nat (length bytes) /\ h_flags h = rtMessageFlags_RawBinary.
Proof.
  intros I [Id C] Cc Fo It Ec Nb. destruct (v_item E s I p e It) as (_ & _ & Fc & _ & Hi). rewrite Ec in Fc, Hi. specialize (Hi fd C).
  destruct (v_conn E s I c fd C) as (_ & A & t & T). pose proof (v_fd E s I t _ fd T) as Lf.
  destruct It as [Ip D]. cbn [step]. rewrite Fo. rewrite D. cbn [obind]. cbv zeta. rewrite Hi. cbn [i_fd i_id].
  assert (X : negb (Nat.eqb fd 0) && alive s fd && Nat.ltb 0 (length bytes) = true).
  { rewrite A. destruct (Nat.eqb_spec fd 0); [lia|]. destruct bytes; [now destruct Nb|reflexivity]. }
  rewrite X. eexists. split; [reflexivity|]. cbn [event_header h_topic h_control_data h_payload_length h_flags i_topic].
  split; [|repeat split]. pose proof (fits_len E c Fc). rewrite (firstn_all2 c) by lia. apply cstring_array; [exact Cc|lia].
Qed.

(** ** the list over histories *)
Ltac step_out St := match type of St with Ok (?a, ?b) = Ok (?s', ?es) => let X := fresh "Es" in let Y := fresh "Ee" in apply ok_pair_inv in St; destruct St as [X Y]; subst s'; subst es end.
Lemma step_back E s o s' es : Inv E s -> fair E s o -> step E s o = Ok (s', es) -> forall p f, item s' p f -> (exists e, item s p e /\ same e f) \/ o = Open (n_consumer f) (n_dml f).
Proof.
  intros I Fa St p f It. assert (Keep : item s p f -> (exists e, item s p e /\ same e f) \/ o = Open (n_consumer f) (n_dml f)) by (intros X; left; exists f; split; [exact X|apply same_refl]).
  destruct o as [c d|c t|c d|c d|c|t|c d m tp ts q out|d c|raw b]; cbn [step] in St; cbv zeta in St.
  - destruct Fa as (Fc & Fd & Se). destruct (existsb (bytes_eqb d) (p_open (peers s c))) eqn:X; [step_out St; now apply Keep|].
    destruct (has E d); cbn [negb] in St; [|step_out St; now apply Keep].
    destruct (start_listener s (address E c) c d (owner E d)) as [s1| |] eqn:S1; try discriminate. cbn [obind] in St. step_out St.
    destruct (start_items E s _ c d _ s1 I (fits_len E c Fc) Fd S1) as (_ & _ & _ & _ & _ & e0 & Ec & Ed & K). apply K in It. destruct It as [It|[-> ->]]; [now apply Keep|].
    right. now rewrite Ec, Ed.
  - destruct (nth_error (threads s) t) as [[a ph]|] eqn:N; [|discriminate]. destruct ph; try discriminate.
    destruct (p_conn (peers s c)) eqn:C; [discriminate|]. destruct (p_open (peers s c)) as [|d0 l0] eqn:P; [discriminate|].
    destruct (bytes_eqb a (address E c)) eqn:A; [|discriminate].
    destruct (tell_info (heap s) _ (vec s)) as [h| |] eqn:T; try discriminate. cbn [obind] in St. step_out St.
    assert (Lc : (length c <= 255)%nat) by (apply (fits_len E), (open_fits E s c I); rewrite P; discriminate).
    destruct (tell_items E s _ c h I Lc T) as [_ K]. left. destruct It as [Ip D]. now apply (K p f).
  - destruct (p_conn (peers s c)) eqn:C; [discriminate|]. destruct (p_open (peers s c)) as [|x [|y l]] eqn:P; try discriminate.
    destruct (bytes_eqb x d); [|discriminate]. step_out St. now apply Keep.
  - destruct (p_conn (peers s c)) as [fd|] eqn:C; [|discriminate]. destruct (existsb (bytes_eqb d) (p_open (peers s c))) eqn:X; [|discriminate]. cbn [negb] in St.
    destruct (update_listener s c d) as [s1| |] eqn:S1; try discriminate. cbn [obind] in St. step_out St.
    apply existsb_in in X. destruct (v_open E s I c d X) as (Fc & Fd & _).
    destruct (update_items E s c d s1 I (fits_len E c Fc) Fd S1) as (_ & _ & _ & _ & _ & [(p0 & e0 & _ & _ & _ & K)|(-> & _)]); [|now apply Keep].
    apply Keep. now apply (K p f).
  - step_out St. now apply Keep.
  - destruct (nth_error (threads s) t) as [[a ph]|] eqn:N; [|discriminate]. destruct ph as [|fd|]; try discriminate.
    destruct (alive s fd) eqn:A; [discriminate|]. destruct (drop_addr (heap s) a (vec s)) as [[h v]| |] eqn:D; try discriminate. cbn [obind] in St. step_out St.
    apply Keep. now apply (drop_items E s a h v I D p f).
  - destruct (p_conn (peers s c)); [|discriminate]. destruct (serve_direct E s (copied d) _) as [[r cs]| |]; try discriminate. cbn [obind] in St. step_out St. now apply Keep.
  - destruct (first_item (heap s) (for_both d c) (vec s)) as [[p0|]| |]; try discriminate; cbn [obind] in St; step_out St; now apply Keep.
  - destruct (found s) as [p0|]; [|discriminate]. destruct (deref (heap s) p0) as [e| |]; try discriminate. cbn [obind] in St. step_out St. now apply Keep.
Qed.
Lemma history_reach E also s l s' : history E also s l s' -> reach E s -> reach E s'.
Proof. induction 1 as [s|s o s1 es l s2 F A St H IH]; [tauto|]. intros R. apply IH. now apply (reach_step E s o s1 es). Qed.
Lemma history_items E also s l s' : history E also s l s' -> Inv E s -> forall p f, item s' p f ->
  (exists q e, item s q e /\ same e f) \/ In (Open (n_consumer f) (n_dml f)) l.
Proof.
  induction 1 as [s|s o s1 es l s2 F A St H IH]; intros I p f It; [left; exists p, f; split; [exact It|apply same_refl]|].
  destruct (IH (Inv_step E s o s1 es I F St) p f It) as [(q & e & Ie & Sm)|X]; [|right; now right].
  destruct (step_back E s o s1 es I F St q e Ie) as [(e' & Ie' & Sm')|Eo].
  - left. exists q, e'. split; [exact Ie'|]. destruct Sm as (A1 & A2 & A3 & A4), Sm' as (B1 & B2 & B3 & B4). repeat split; congruence.
  - right. left. destruct Sm as (A1 & A2 & A3 & A4). now rewrite A2, A3.
Qed.
Lemma opened_items E also l s : history E also init l s -> forall p f, item s p f -> In (Open (n_consumer f) (n_dml f)) l.
Proof.
  intros H p f It. destruct (history_items E also init l s H (Inv_init E) p f It) as [(q & e & [[] _] & _)|X]. exact X.
Qed.

(** a publisher that has found an item may use it while the consumer stays *)
Lemma stays_step E s o s' es c d fd p e : Inv E s -> fair E s o -> stays c d s o -> step E s o = Ok (s', es) ->
  connected s c d fd -> found s = Some p -> item s p e -> n_consumer e = c -> n_dml e = d ->
  connected s' c d fd /\ found s' = Some p /\ exists f, item s' p f /\ n_consumer f = c /\ n_dml f = d.
Proof.
  intros I Fa Sy St [Id C] Fo It Ec Ed.
  destruct o as [x y|x t|x y|x y|x|t|x y m tp ts q out|y x|raw b]; cbn [step] in St; cbv zeta in St; cbn [stays] in Sy; try contradiction.
  - destruct Fa as (Fx & Fy & Se). destruct (existsb (bytes_eqb y) (p_open (peers s x))) eqn:X; [step_out St; split; [now split|]; split; [exact Fo|]; now exists e|].
    destruct (has E y); cbn [negb] in St; [|step_out St; split; [now split|]; split; [exact Fo|]; now exists e].
    destruct (start_listener s (address E x) x y (owner E y)) as [s1| |] eqn:S1; try discriminate. cbn [obind] in St. step_out St.
    destruct (start_items E s _ x y _ s1 I (fits_len E x Fx) Fy S1) as (_ & Ep & _ & _ & Ef & e0 & _ & _ & K). split; [|split; [cbn; congruence|exists e; split; [now apply (K p e); left|now split]]].
    unfold connected. cbn [peers]. rewrite Ep. unfold set_peer. destruct (bytes_eqb c x) eqn:Y; [apply bytes_eqb_eq in Y; subst x|now split].
    cbn. split; [apply in_or_app; now left|exact C].
  - destruct (nth_error (threads s) t) as [[a ph]|] eqn:N; [|discriminate]. destruct ph; try discriminate.
    destruct (p_conn (peers s x)) eqn:Cx; [discriminate|]. destruct (p_open (peers s x)) as [|d0 l0] eqn:P; [discriminate|].
    destruct (bytes_eqb a (address E x)) eqn:A; [|discriminate].
    destruct (tell_info (heap s) _ (vec s)) as [h| |] eqn:T; try discriminate. cbn [obind] in St. step_out St.
    assert (Lc : (length x <= 255)%nat) by (apply (fits_len E), (open_fits E s x I); rewrite P; discriminate).
    destruct (tell_items E s _ x h I Lc T) as [K _]. split; [|split; [exact Fo|]].
    + unfold connected. cbn [peers]. rewrite set_peer_other by (intros ->; congruence). now split.
    + destruct (K p e It) as (f & [Ip D] & (_ & S2 & S3 & _)). exists f. split; [now split|]. split; congruence.
  - destruct (p_conn (peers s x)) eqn:Cx; [discriminate|]. destruct (p_open (peers s x)) as [|z [|z' l]] eqn:P; try discriminate.
    destruct (bytes_eqb z y); [|discriminate]. step_out St. split; [|split; [exact Fo|now exists e]].
    unfold connected. cbn [peers]. rewrite set_peer_other by (intros ->; congruence). now split.
  - destruct (p_conn (peers s x)) as [fx|] eqn:Cx; [|discriminate]. destruct (existsb (bytes_eqb y) (p_open (peers s x))) eqn:X; [|discriminate]. cbn [negb] in St.
    destruct (update_listener s x y) as [s1| |] eqn:S1; try discriminate. cbn [obind] in St. step_out St.
    apply existsb_in in X. destruct (v_open E s I x y X) as (Fx & Fy & _).
    destruct (update_items E s x y s1 I (fits_len E x Fx) Fy S1) as (_ & Ep & _ & _ & Ef & Ch).
    split; [|split; [cbn; congruence|]].
    + unfold connected. cbn [peers]. rewrite Ep. unfold set_peer. destruct (bytes_eqb c x) eqn:Y; [apply bytes_eqb_eq in Y; subst x|now split].
      cbn [p_open p_conn]. assert (J : In d (List.filter (fun n => negb (bytes_eqb n y)) (p_open (peers s c)))).
      { apply filter_In. split; [exact Id|]. rewrite Bool.negb_true_iff. apply bytes_eqb_neq. intros ->. now apply Sy. }
      split; [exact J|]. destruct (List.filter _ _); [destruct J|]. congruence.
    + destruct Ch as [(p0 & e0 & It0 & C0 & D0 & K)|(-> & _)]; [|now exists e]. exists e. split; [|now split]. apply K. split; [exact It|].
      intros ->. assert (e0 = e) by (destruct It0, It; congruence). subst e0. apply Sy. split; congruence.
  - step_out St. split; [|split; [exact Fo|now exists e]]. unfold connected. cbn [peers]. rewrite set_peer_other by (intros X; apply Sy; now symmetry). now split.
  - destruct (nth_error (threads s) t) as [[a ph]|] eqn:N; [|discriminate]. destruct ph as [|f|]; try discriminate.
    destruct (alive s f) eqn:A; [discriminate|]. destruct (drop_addr (heap s) a (vec s)) as [[h v]| |] eqn:D; try discriminate. cbn [obind] in St. step_out St.
    split; [now split|]. split; [exact Fo|]. exists e. split; [|now split]. apply (drop_items E s a h v I D p e). split; [exact It|].
    destruct (v_item E s I p e It) as (Ae & _). rewrite Ae, Ec. intros Ea. destruct (v_conn E s I c fd C) as (_ & Af & u & U).
    rewrite <- Ea in N. assert (u = t) by (apply (v_one E s I u t (address E c) (Serving fd) (Serving f)); [exact U|exact N|discriminate|discriminate]). subst u.
    assert (Some (mkThread (address E c) (Serving fd)) = Some (mkThread (address E c) (Serving f))) by (rewrite <- U; exact N). congruence.
  - destruct (p_conn (peers s x)); [|discriminate]. destruct (serve_direct E s (copied y) _) as [[r cs]| |]; try discriminate. cbn [obind] in St. step_out St.
    split; [now split|]. split; [exact Fo|now exists e].
Qed.
Lemma stays_history E s l s' c d fd p e : history E (stays c d) s l s' -> Inv E s ->
  connected s c d fd -> found s = Some p -> item s p e -> n_consumer e = c -> n_dml e = d ->
  Inv E s' /\ connected s' c d fd /\ found s' = Some p /\ exists f, item s' p f /\ n_consumer f = c /\ n_dml f = d.
Proof.
  intros H. revert p e. induction H as [s|s o s1 es l s2 F A St H IH]; intros p e I Cn Fo It Ec Ed; [split; [exact I|]; split; [exact Cn|]; split; [exact Fo|]; now exists e|].
  destruct (stays_step E s o s1 es c d fd p e I F A St Cn Fo It Ec Ed) as (Cn1 & Fo1 & f & It1 & Ec1 & Ed1).
  apply (IH p f); try assumption. now apply (Inv_step E s o s1 es).
Qed.
Lemma event_raced E s c d fd l s1 es1 s2 raw bytes : reach E s -> connected s c d fd -> is_cstr c = true -> bytes <> [] ->
  step E s (PubFind d c) = Ok (s1, es1) -> history E (stays c d) s1 l s2 ->
  es1 = [] /\ exists h s3, step E s2 (PubSend raw bytes) = Ok (s3, [EventOn fd h bytes]) /\
    cstring (h_topic h) = Some c /\ h_control_data h = (match raw with Some k => k | None => 1 end) /\ h_payload_length h = Z.of_nat (length bytes) /\ h_flags h = rtMessageFlags_RawBinary.
Proof.
  intros R Cn Cc Nb St H. pose proof (reach_Inv E s R) as I. destruct Cn as [Id C]. destruct (v_open E s I c d Id) as (Fc & Fd & p0 & e0 & It0 & Ec0 & Ed0).
  destruct (event_found E s d c I Fc Fd) as (o & s1' & St' & Es1 & S). rewrite St in St'. apply ok_pair_inv in St'. destruct St' as [<- ->].
  destruct o as [p|]; [|exfalso; now apply (S p0 e0)]. split; [reflexivity|]. destruct S as (e & It & Ec & Ed).
  assert (I1 : Inv E s1) by (rewrite Es1; now apply Inv_found).
  destruct (stays_history E s1 l s2 c d fd p e H I1) as (I2 & Cn2 & Fo2 & f & It2 & Ec2 & _); try assumption; [rewrite Es1; now split|rewrite Es1; reflexivity|rewrite Es1; exact It|].
  destruct (event_sent E s2 c d fd p f raw bytes I2 Cn2 Cc Fo2 It2 Ec2 Nb) as (h & X & K). exists h. eexists. split; [exact X|exact K].
Qed.

(** ** the list of the provider is exactly what is open *)
Definition gone (E : env) (s : state) (c : name) : Prop := exists t fd, runs s t (address E c) (Serving fd) /\ alive s fd = false.
Record Tidy (E : env) (s : state) : Prop := {
  w_open : forall p e, item s p e -> In (n_dml e) (p_open (peers s (n_consumer e))) \/ gone E s (n_consumer e);
  w_uniq : forall p q e f, item s p e -> item s q f -> n_consumer e = n_consumer f -> n_dml e = n_dml f -> p = q }.
Lemma gone_settled E s c : settled E s c -> ~ gone E s c.
Proof. intros S (t & fd & R & A). rewrite (S t fd R) in A. discriminate. Qed.
Lemma Tidy_same E s o : Tidy E s -> Tidy E (mkState (heap s) (vec s) (threads s) (peers s) (alive s) (conns s) o).
Proof. intros [A B]. constructor; assumption. Qed.
Lemma Tidy_step E s o s' es : Inv E s -> Tidy E s -> fair E s o -> clean s o -> step E s o = Ok (s', es) -> Tidy E s'.
Proof.
  intros I T Fa Cl St.
  destruct o as [c d|c t|c d|c d|c|t|c d m tp ts q out|d c|raw b]; cbn [step] in St; cbv zeta in St; cbn [clean] in Cl; try contradiction.
  - destruct Fa as (Fc & Fd & Se). destruct (existsb (bytes_eqb d) (p_open (peers s c))) eqn:X; [step_out St; exact T|].
    destruct (has E d); cbn [negb] in St; [|step_out St; exact T].
    destruct (start_listener s (address E c) c d (owner E d)) as [s1| |] eqn:S1; try discriminate. cbn [obind] in St. step_out St.
    destruct (start_items E s _ c d _ s1 I (fits_len E c Fc) Fd S1) as ((more & Et) & Ep & Ea & _ & _ & e0 & Ec & Ed & K).
    assert (Nw : forall p e, item s p e -> n_consumer e = c -> n_dml e = d -> False).
    { intros p e It A B. destruct (w_open E s T p e It) as [Y|Y]; [rewrite A, B in Y; apply existsb_in in Y; congruence|]. rewrite A in Y. now apply (gone_settled E s c). }
    constructor.
    + intros p e It. apply K in It. destruct It as [It|[-> ->]].
      * destruct (w_open E s T p e It) as [Y|(t & fd & R & A)].
        -- left. cbn [peers]. rewrite Ep. unfold set_peer. destruct (bytes_eqb (n_consumer e) c) eqn:Q; [|exact Y]. apply bytes_eqb_eq in Q. cbn. apply in_or_app. left. now rewrite <- Q.
        -- right. exists t, fd. split; [|cbn; congruence]. unfold runs. cbn [threads]. rewrite Et. rewrite nth_error_app1; [exact R|]. apply nth_error_Some. unfold runs in R. congruence.
      * left. cbn [peers]. rewrite Ep, Ec, Ed, set_peer_same. cbn. apply in_or_app. right. now left.
    + intros p q e f Ie If A B. apply K in Ie. apply K in If. destruct Ie as [Ie|[-> ->]]; destruct If as [If|[-> ->]].
      * now apply (w_uniq E s T p q e f).
      * exfalso. apply (Nw p e Ie); congruence.
      * exfalso. apply (Nw q f If); congruence.
      * reflexivity.
  - destruct (nth_error (threads s) t) as [[a ph]|] eqn:N; [|discriminate]. destruct ph; try discriminate.
    destruct (p_conn (peers s c)) eqn:C; [discriminate|]. destruct (p_open (peers s c)) as [|d0 l0] eqn:P; [discriminate|].
    destruct (bytes_eqb a (address E c)) eqn:A; [|discriminate].
    destruct (tell_info (heap s) _ (vec s)) as [h| |] eqn:Te; try discriminate. cbn [obind] in St. step_out St.
    assert (Lc : (length c <= 255)%nat) by (apply (fits_len E), (open_fits E s c I); rewrite P; discriminate).
    destruct (tell_items E s _ c h I Lc Te) as [_ K].
    constructor.
    + intros p f [Ip D]. destruct (K p f Ip D) as (e & It & (_ & S2 & S3 & _)). rewrite S2, S3. destruct (w_open E s T p e It) as [Y|(u & fd & R & Al)].
      * left. cbn [peers]. unfold set_peer. destruct (bytes_eqb (n_consumer e) c) eqn:Q; [|exact Y]. apply bytes_eqb_eq in Q. cbn. rewrite Q in Y. now rewrite P in Y.
      * right. exists u, fd. split.
        -- unfold runs. cbn [threads]. rewrite (set_phase_nth _ _ _ _ u N). destruct (Nat.eqb_spec u t) as [->|]; [exfalso; unfold runs in R; congruence|exact R].
        -- cbn [alive]. pose proof (v_fd E s I u _ fd R). destruct (Nat.eqb_spec fd (S (conns s))); [lia|exact Al].
    + intros p q e f [Ip D] [Iq G]. destruct (K p e Ip D) as (e1 & It1 & (_ & S2 & S3 & _)). destruct (K q f Iq G) as (f1 & It2 & (_ & S5 & S6 & _)).
      intros X Y. apply (w_uniq E s T p q e1 f1 It1 It2); congruence.
  - destruct (p_conn (peers s c)) as [fd|] eqn:C; [|discriminate]. destruct (existsb (bytes_eqb d) (p_open (peers s c))) eqn:X; [|discriminate]. cbn [negb] in St.
    destruct (update_listener s c d) as [s1| |] eqn:S1; try discriminate. cbn [obind] in St. step_out St.
    apply existsb_in in X. destruct (v_open E s I c d X) as (Fc & Fd & p1 & e1 & It1 & Ec1 & Ed1).
    destruct (update_items E s c d s1 I (fits_len E c Fc) Fd S1) as (Et & Ep & Ea & _ & _ & [(p0 & e0 & It0 & Ec0 & Ed0 & K)|(_ & No)]); [|exfalso; now apply (No p1 e1)].
    set (l := List.filter _ _). set (last := match l with [] => true | _ => false end).
    assert (Gn : forall x, gone E s x -> gone E (mkState (heap s1) (vec s1) (threads s1) (set_peer (peers s1) c (mkPeer l (if last then None else Some fd)))
            (if last then hang_up (alive s1) (Some fd) else alive s1) (conns s1) (found s1)) x).
    { intros x (t & f & R & A). exists t, f. split; [unfold runs; cbn [threads]; rewrite Et; exact R|]. cbn [alive]. rewrite Ea. destruct last; [|exact A]. cbn. now destruct (Nat.eqb f fd). }
    constructor.
    + intros p e It. change (item s1 p e) in It. apply K in It. destruct It as [It Np]. destruct (w_open E s T p e It) as [Y|Y]; [|right; now apply Gn].
      left. cbn [peers]. rewrite Ep. unfold set_peer. destruct (bytes_eqb (n_consumer e) c) eqn:Q; [|exact Y]. apply bytes_eqb_eq in Q. cbn [p_open]. unfold l. apply filter_In.
      rewrite Q in Y. split; [exact Y|]. rewrite Bool.negb_true_iff. apply bytes_eqb_neq. intros Z. apply Np. apply (w_uniq E s T p p0 e e0 It It0); congruence.
    + intros p q e f Ie If. change (item s1 p e) in Ie. change (item s1 q f) in If. apply K in Ie. apply K in If. destruct Ie as [Ie _]. destruct If as [If _]. now apply (w_uniq E s T p q e f).
  - step_out St. constructor.
    + intros p e It. cbn [peers]. destruct (bytes_eqb (n_consumer e) c) eqn:Q.
      * apply bytes_eqb_eq in Q. right. destruct (w_open E s T p e It) as [Y|(t & f & R & A)].
        -- destruct Cl as [Cl|Cl]; [|rewrite Q, Cl in Y; destruct Y]. destruct (p_conn (peers s c)) as [fd|] eqn:C; [|now destruct Cl].
           destruct (v_conn E s I c fd C) as (_ & _ & t & R). exists t, fd. rewrite Q. split; [exact R|]. cbn. now rewrite Nat.eqb_refl.
        -- exists t, f. split; [exact R|]. cbn [alive]. unfold hang_up. destruct (p_conn (peers s c)) as [k|]; [|exact A]. now destruct (Nat.eqb f k).
      * destruct (w_open E s T p e It) as [Y|(t & f & R & A)]; [left; unfold set_peer; now rewrite Q|]. right. exists t, f. split; [exact R|].
        cbn [alive]. unfold hang_up. destruct (p_conn (peers s c)) as [k|]; [|exact A]. now destruct (Nat.eqb f k).
    + apply (w_uniq E s T).
  - destruct (nth_error (threads s) t) as [[a ph]|] eqn:N; [|discriminate]. destruct ph as [|fd|]; try discriminate.
    destruct (alive s fd) eqn:A; [discriminate|]. destruct (drop_addr (heap s) a (vec s)) as [[h v]| |] eqn:D; try discriminate. cbn [obind] in St. step_out St.
    pose proof (drop_items E s a h v I D) as K. constructor.
    + intros p f It. apply K in It. destruct It as [It Na]. destruct (w_open E s T p f It) as [Y|(u & g & R & Al)]; [now left|]. right. exists u, g. split; [|exact Al].
      unfold runs. cbn [threads]. rewrite (set_phase_nth _ _ _ _ u N). destruct (Nat.eqb_spec u t) as [->|]; [|exact R]. exfalso. apply Na.
      destruct (v_item E s I p f It) as (Af & _). rewrite Af. unfold runs in R. congruence.
    + intros p q e f Ie If. apply K in Ie. apply K in If. destruct Ie as [Ie _]. destruct If as [If _]. now apply (w_uniq E s T p q e f).
  - destruct (p_conn (peers s c)); [|discriminate]. destruct (serve_direct E s (copied d) _) as [[r cs]| |]; try discriminate. cbn [obind] in St. step_out St. exact T.
  - destruct (first_item (heap s) (for_both d c) (vec s)) as [[p0|]| |]; try discriminate; cbn [obind] in St; step_out St; now apply Tidy_same.
  - destruct (found s) as [p0|]; [|discriminate]. destruct (deref (heap s) p0) as [e| |]; try discriminate. cbn [obind] in St. step_out St. now apply Tidy_same.
Qed.
Lemma Tidy_init E : Tidy E init.
Proof. constructor; [intros p e [[] _]|intros p q e f [[] _]]. Qed.
Lemma clean_history E s l s' : history E clean s l s' -> Inv E s -> Tidy E s -> Inv E s' /\ Tidy E s'.
Proof.
  induction 1 as [s|s o s1 es l s2 F A St H IH]; intros I T; [now split|]. apply IH; [now apply (Inv_step E s o s1 es)|now apply (Tidy_step E s o s1 es)].
Qed.

(** ** no step but those named goes wrong *)
Lemma step_safe E s o : reach E s ->
  match o with
  | Request c d method tp ts _ out => text_ok method /\ text_ok tp /\ text_ok ts /\ size_ok out /\ forall k n m, exists r, hs E k n (Some method) m = Answer r
  | PubSend _ _ => forall p, found s = Some p -> In p (vec s)
  | _ => True
  end -> step E s o <> UB.
Proof.
  intros R. pose proof (reach_Inv E s R) as I. destruct o as [c d|c t|c d|c d|c|t|c d m tp ts q out|d c|raw b]; cbn [step]; cbv zeta; intros H.
  - destruct (existsb _ _); [discriminate|]. destruct (has E d); [|discriminate]. cbn [negb]. destruct (start_ok E s (address E c) c d (owner E d) I) as [s1 ->]. discriminate.
  - destruct (nth_error (threads s) t) as [[a [| |]]|]; try discriminate. destruct (p_conn (peers s c)); [discriminate|]. destruct (p_open (peers s c)); [discriminate|].
    destruct (bytes_eqb a (address E c)); [|discriminate]. destruct (tell_info_spec (mkInfo (S (conns s)) 1 (copied c)) (vec s) (heap s) (v_valid E s I)) as (h & T & _). rewrite T. discriminate.
  - destruct (p_conn (peers s c)); [discriminate|]. destruct (p_open (peers s c)) as [|x [|]]; try discriminate. now destruct (bytes_eqb x d).
  - destruct (p_conn (peers s c)); [|discriminate]. destruct (existsb _ _); [|discriminate]. cbn [negb]. destruct (update_ok E s c d I) as [s1 ->]. discriminate.
  - discriminate.
  - destruct (nth_error (threads s) t) as [[a [|fd|]]|]; try discriminate. destruct (alive s fd); [discriminate|].
    destruct (drop_addr_spec a (vec s) (heap s) (v_nodup E s I) (v_valid E s I)) as (h & v & D & _). rewrite D. discriminate.
  - destruct H as (Tm & Tp & Ts & So & Ha). destruct (p_conn (peers s c)); [|discriminate]. unfold serve_direct.
    destruct (request_read m tp ts out Tm Tp Ts So) as (m' & a & b & G & _). rewrite G.
    destruct (first_item_spec (heap s) (for_dml (copied d)) (vec s) (v_valid E s I)) as (o & F & S). rewrite F. cbn [obind].
    destruct o as [p|]; [|discriminate]. destruct S as (_ & e & D & _). rewrite D. cbn [obind]. destruct (Ha (n_handler e) (copied d) m') as [r ->]. discriminate.
  - destruct (first_item_spec (heap s) (for_both d c) (vec s) (v_valid E s I)) as (o & F & _). rewrite F. cbn [obind]. now destruct o.
  - destruct (found s) as [p|]; [|discriminate]. destruct (v_valid E s I p (H p eq_refl)) as [e D]. rewrite D. discriminate.
Qed.
