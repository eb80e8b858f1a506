(** * Proofs about binlog events and files (C29-C33) *)
From Verif Require Import Model.Base Model.BytesParser Model.Utf8 Model.Flags Model.Event
  Spec.Nums Spec.Wire Spec.Decoders Spec.BinlogSpec
  Proofs.BaseLemmas Proofs.BytesParserProofs Proofs.CodecProofs Proofs.WireLemmas.
Open Scope N_scope.

(** ** event types *)
Lemma event_type_of_spec code : event_type_of code =
  match type_with_code code with Some t => Ok t | None => Err EConstraint end.
Proof.
  destruct (N.ltb_spec code 39) as [H|H].
  - assert (In code (map N.of_nat (seq 0 39))) as Hin.
    { apply in_map_iff. exists (N.to_nat code). split; [apply N2Nat.id|]. apply in_seq. lia. }
    revert Hin. generalize code. apply Forall_forall. cbn [seq map]. repeat constructor.
  - assert (type_with_code code = None) as ->.
    { apply nth_error_None. change (length event_types) with 39%nat. lia. }
    unfold event_type_of. destruct code as [|p]; [lia|].
    do 5 (destruct p as [p|p|]; try lia; try reflexivity).
    all: destruct p as [p|p|]; try lia; try reflexivity.
Qed.
Lemma event_type_code_spec t : type_with_code (event_type_code t) = Some t.
Proof. destruct t; reflexivity. Qed.
Lemma type_with_code_inv code t : type_with_code code = Some t -> code = event_type_code t /\ code < 39.
Proof.
  intros H. assert (code < 39).
  { assert (nth_error event_types (N.to_nat code) <> None) as H' by (unfold type_with_code in H; congruence).
    apply nth_error_Some in H'. change (length event_types) with 39%nat in H'. lia. }
  split; [|assumption].
  assert (In code (map N.of_nat (seq 0 39))) as Hin.
  { apply in_map_iff. exists (N.to_nat code). split; [apply N2Nat.id|]. apply in_seq. lia. }
  revert H. clear H0. cbn [seq map In] in Hin.
  repeat destruct Hin as [<-|Hin]; try (intros [= <-]; reflexivity). destruct Hin.
Qed.
Lemma type_with_code_lt code : code < 39 -> exists t, type_with_code code = Some t.
Proof.
  intros H. unfold type_with_code. destruct (nth_error event_types (N.to_nat code)) eqn:E; [eauto|].
  apply nth_error_None in E. change (length event_types) with 39%nat in E. lia.
Qed.
Lemma kind_spec t : event_kind_of t = kind_with_code (event_type_code t).
Proof. destruct t; reflexivity. Qed.

(** ** headers *)
Lemma land_flags f : N.land f all_header_flags = f mod 1024.
Proof. change all_header_flags with (N.ones 10). apply N.land_ones. Qed.
Lemma header_read ts code sid len next flags rest : header_fields_ok ts code sid len next flags ->
  read_event_header (header_bytes ts code sid len next flags ++ rest) =
  match type_with_code code with
  | Some t => (Ok (mk_header ts t sid len next (flags mod 1024)), rest)
  | None => (Err EConstraint, wle 4 next ++ wle 2 flags ++ rest)
  end.
Proof.
  intros (H1 & H2 & H3 & H4 & H5 & H6). unfold read_event_header, header_bytes. rewrite <- !app_assoc.
  assert (read_event_header_v1 (wle 4 ts ++ wle 1 code ++ wle 4 sid ++ wle 4 len ++ wle 4 next ++ wle 2 flags ++ rest)
    = (match type_with_code code with Some t => Ok (mk_header_v1 ts t sid len) | None => Err EConstraint end,
       wle 4 next ++ wle 2 flags ++ rest)) as H.
  { unfold read_event_header_v1. rsteps. rewrite event_type_of_spec. destruct (type_with_code code); reflexivity. }
  destruct (type_with_code code).
  - eapply eq_trans; [eapply pbind_ok; exact H|]. rsteps. cbn [h1_timestamp h1_type h1_server_id h1_event_len].
    unfold from_bits_truncate. rewrite land_flags. reflexivity.
  - apply pbind_err. exact H.
Qed.
Lemma header_length ts code sid len next flags : length (header_bytes ts code sid len next flags) = 19%nat.
Proof. unfold header_bytes. rewrite !app_length, !wle_length. reflexivity. Qed.
Lemma wle_le_val bs : wle (length bs) (le_val bs) = bs.
Proof. rewrite wle_to_le. apply to_le_bytes_le_val. Qed.
Lemma le_val_bound' bs k : length bs = k -> le_val bs < 2 ^ (8 * N.of_nat k).
Proof. intros <-. rewrite <- pow256. apply le_val_bound. Qed.
Lemma split_len {A} k (l : list A) : (k <= length l)%nat -> exists a b, l = a ++ b /\ length a = k.
Proof. intros H. exists (firstn k l), (skipn k l). split; [symmetry; apply firstn_skipn|apply firstn_length_le; exact H]. Qed.
Lemma le_repr k bs : (k <= length bs)%nat -> exists n rest, n < 2 ^ (8 * N.of_nat k) /\ bs = wle k n ++ rest /\ (length rest = length bs - k)%nat.
Proof.
  intros H. destruct (split_len k bs H) as (a & b & -> & Ha). exists (le_val a), b. split; [apply le_val_bound'; exact Ha|].
  split; [rewrite <- Ha at 1; rewrite wle_le_val; reflexivity|]. rewrite app_length. lia.
Qed.
Lemma header_surj bs : (19 <= length bs)%nat -> exists ts code sid len next flags rest,
  header_fields_ok ts code sid len next flags /\ bs = header_bytes ts code sid len next flags ++ rest.
Proof.
  intros H. destruct (le_repr 4 bs) as (ts & r & B1 & -> & L1); [lia|].
  destruct (le_repr 1 r) as (code & r2 & B2 & -> & L2); [lia|].
  destruct (le_repr 4 r2) as (sid & r3 & B3 & -> & L3); [lia|].
  destruct (le_repr 4 r3) as (len & r4 & B4 & -> & L4); [lia|].
  destruct (le_repr 4 r4) as (next & r5 & B5 & -> & L5); [lia|].
  destruct (le_repr 2 r5) as (flags & r6 & B6 & -> & L6); [lia|].
  exists ts, code, sid, len, next, flags, r6. split; [repeat split; assumption|].
  unfold header_bytes. rewrite <- !app_assoc. reflexivity.
Qed.
Lemma header_short bs : (length bs < 19)%nat ->
  (exists k, fst (read_event_header bs) = Err (EIncomplete (Some k))) \/ fst (read_event_header bs) = Err EConstraint.
Proof.
  intros H. unfold read_event_header, read_event_header_v1.
  assert (T : forall k s, (length s < k)%nat -> exists n, take k s = (Err (EIncomplete (Some n)), s)).
  { intros k s Hs. eexists. apply take_short. exact Hs. }
  assert (U : forall A B (p : parser A) (f : A -> parser B) s n, p s = (Err (EIncomplete (Some n)), s) ->
     exists k, fst (pbind p f s) = Err (EIncomplete (Some k))).
  { intros A B p f s n E. exists n. unfold pbind. rewrite E. reflexivity. }
  assert (U4 : forall B (f : N -> parser B) s, (length s < 4)%nat -> exists k, fst (pbind read_le_u32 f s) = Err (EIncomplete (Some k))).
  { intros B f s Hs. destruct (T 4%nat s Hs) as (n & E). eapply U. unfold read_le_u32. rewrite (pmap_err _ _ _ _ _ E). reflexivity. }
  rewrite !pbind_assoc.
  destruct (Nat.ltb_spec (length bs) 4); [left; auto|].
  destruct (le_repr 4 bs) as (ts & r & B1 & -> & L1); [lia|].
  rewrite (pbind_ok _ _ _ _ _ (rd_u32 _ _ B1)). rewrite pbind_assoc.
  destruct (Nat.ltb_spec (length r) 1). { left. destruct r; [|cbn in *; lia]. eexists. reflexivity. }
  destruct (le_repr 1 r) as (code & r2 & B2 & -> & L2); [lia|].
  rewrite (pbind_ok _ _ _ _ _ (rd_u8 _ _ B2)). rewrite pbind_assoc.
  destruct (Nat.ltb_spec (length r2) 4); [left; auto|].
  destruct (le_repr 4 r2) as (sid & r3 & B3 & -> & L3); [lia|].
  rewrite (pbind_ok _ _ _ _ _ (rd_u32 _ _ B3)). rewrite pbind_assoc.
  destruct (Nat.ltb_spec (length r3) 4); [left; auto|].
  destruct (le_repr 4 r3) as (len & r4 & B4 & -> & L4); [lia|].
  rewrite (pbind_ok _ _ _ _ _ (rd_u32 _ _ B4)). rewrite pbind_assoc. rewrite event_type_of_spec.
  destruct (type_with_code code); [|right; reflexivity].
  rewrite (pbind_ok (plift (Ok l)) _ r4 l r4 eq_refl). rewrite (pbind_ok (pret _) _ r4 _ r4 eq_refl).
  destruct (Nat.ltb_spec (length r4) 4); [left; auto|].
  destruct (le_repr 4 r4) as (next & r5 & B5 & -> & L5); [lia|].
  rewrite (pbind_ok _ _ _ _ _ (rd_u32 _ _ B5)). left.
  destruct (T 2%nat r5) as (n & E); [lia|]. eapply U. unfold read_le_u16. rewrite (pmap_err _ _ _ _ _ E). reflexivity.
Qed.
Lemma header_inv bs h rest : read_event_header bs = (Ok h, rest) -> exists ts code sid len next flags t,
  header_fields_ok ts code sid len next flags /\ bs = header_bytes ts code sid len next flags ++ rest /\
  type_with_code code = Some t /\ h = mk_header ts t sid len next (flags mod 1024).
Proof.
  intros H. destruct (Nat.ltb_spec (length bs) 19) as [L|L].
  - destruct (header_short bs L) as [[k E]|E]; rewrite H in E; discriminate E.
  - destruct (header_surj bs L) as (ts & code & sid & len & next & flags & r & Hok & ->).
    rewrite (header_read _ _ _ _ _ _ _ Hok) in H. destruct (type_with_code code) eqn:E; [|discriminate H].
    injection H as <- <-. exists ts, code, sid, len, next, flags, l. auto.
Qed.
Lemma fast_type ts code sid len next flags rest : header_fields_ok ts code sid len next flags ->
  fst (read_event_type (header_bytes ts code sid len next flags ++ rest)) =
    match type_with_code code with Some t => Ok t | None => Err EConstraint end /\
  fst (read_event_length (header_bytes ts code sid len next flags ++ rest)) = Ok len.
Proof.
  intros (H1 & H2 & H3 & H4 & H5 & H6). unfold header_bytes. rewrite <- !app_assoc. split.
  - unfold read_event_type. rewrite (pbind_ok _ _ _ _ _ (rd_len _ (wle 4 ts) 4 eq_refl)).
    rewrite (pbind_ok _ _ _ _ _ (rd_u8 _ _ H2)). rewrite event_type_of_spec. reflexivity.
  - unfold read_event_length. rewrite (app_assoc (wle 1 code)), (app_assoc (wle 4 ts)).
    rewrite (pbind_ok _ _ _ _ _ (rd_len _ (wle 4 ts ++ wle 1 code ++ wle 4 sid) 9 eq_refl)).
    rewrite rd_u32 by exact H4. reflexivity.
Qed.

(** ** events *)
  (** *** what any successfully parsed input is *)
  Lemma header_front sum bs h rest len data tail : read_event_header bs = (Ok h, rest) -> data_len h = Ok len ->
    rest = data ++ tail -> blen data = len ->
    (sum = true -> 4 <= blen data) ->
    exists e trailer, log_event_ok sum e /\ (length trailer = if sum then 4 else 0)%nat /\
      bs = event_front sum e ++ trailer ++ tail /\ data = le_body e ++ trailer /\ header_for sum e = Some h /\
      event_size sum e = h_event_len h.
  Proof.
    intros Hh Hd -> Hlen H4.
    destruct (header_inv _ _ _ Hh) as (ts & code & sid & l & next & flags & t & Hok & -> & Ht & ->).
    unfold data_len, csub in Hd. cbn [h_event_len] in *. destruct (N.ltb_spec l 19) as [|Hl]; [discriminate|]. injection Hd as <-.
    assert (exists body trailer, data = body ++ trailer /\ (length trailer = if sum then 4 else 0)%nat) as (body & trailer & -> & Htr).
    { destruct sum.
      - exists (firstn (length data - 4) data), (skipn (length data - 4) data). split; [symmetry; apply firstn_skipn|].
        rewrite skipn_length. specialize (H4 eq_refl). unfold blen in H4. lia.
      - exists data, []. split; [symmetry; apply app_nil_r|reflexivity]. }
    assert (event_size sum (mk_log_event ts code sid next flags body) = l) as Hs.
    { unfold event_size. cbn [le_body]. rewrite blen_app in Hlen. unfold blen in Hlen. rewrite Htr in Hlen. destruct sum; lia. }
    destruct Hok as (H1 & H2 & H3 & H5 & H6 & H7). destruct (type_with_code_inv _ _ Ht) as [_ Hc].
    exists (mk_log_event ts code sid next flags body), trailer.
    unfold log_event_ok, event_front, header_for. rewrite Hs. cbn [le_timestamp le_code le_server_id le_next_pos le_flags le_body].
    rewrite Ht. repeat split; try assumption. rewrite <- !app_assoc. reflexivity.
  Qed.
Section Crc.
  Variable crc : bytes -> N.

  Lemma front_header sum e : log_event_ok sum e ->
    header_fields_ok (le_timestamp e) (le_code e) (le_server_id e) (event_size sum e) (le_next_pos e) (le_flags e).
  Proof. intros (H1 & H2 & H3 & H4 & H5 & H6). repeat split; try assumption. change (2 ^ 8) with 256. lia. Qed.
  Lemma front_length sum e : blen (event_front sum e) = 19 + blen (le_body e).
  Proof. unfold event_front. rewrite blen_app. unfold blen at 1. rewrite header_length. reflexivity. Qed.
  Lemma header_of_event sum e tail : log_event_ok sum e -> exists h,
    header_for sum e = Some h /\ h_event_len h = event_size sum e /\ Some (h_type h) = type_with_code (le_code e) /\
    read_event_header (event_front sum e ++ tail) = (Ok h, le_body e ++ tail).
  Proof.
    intros H. destruct (type_with_code_lt (le_code e)) as (t & Ht); [apply H|].
    unfold header_for, event_front. rewrite Ht, <- app_assoc.
    rewrite (header_read _ _ _ _ _ _ _ (front_header _ _ H)), Ht. eexists. repeat split; reflexivity.
  Qed.
  Lemma kind_of_type code t : type_with_code code = Some t -> event_kind_of t = kind_with_code code.
  Proof. intros H. destruct (type_with_code_inv _ _ H) as [-> _]. apply kind_spec. Qed.

  Lemma check_spec e trailer rest : log_event_ok true e -> trailer < 2 ^ 32 ->
    check_checksum crc (event_front true e ++ wle 4 trailer ++ rest) =
    (if trailer =? crc (event_front true e) then Ok tt else Err (EChecksum trailer (crc (event_front true e))),
     event_front true e ++ wle 4 trailer ++ rest).
  Proof.
    intros H Ht. destruct (header_of_event true e (wle 4 trailer ++ rest) H) as (h & _ & Hl & _ & E).
    set (input := event_front true e ++ wle 4 trailer ++ rest) in *.
    unfold check_checksum. eapply eq_trans.
    { eapply pbind_ok. unfold ppeek. rewrite E. reflexivity. }
    assert (read_len (h_event_len h) input = (Ok (event_front true e ++ wle 4 trailer), rest)) as E2.
    { unfold input. rewrite app_assoc. apply rd_len. rewrite Hl, blen_app, front_length. unfold blen. rewrite wle_length.
      unfold event_size. lia. }
    eapply eq_trans. { eapply pbind_ok. unfold ppeek. rewrite E2. reflexivity. }
    assert (blen (event_front true e ++ wle 4 trailer) = blen (event_front true e) + 4) as L.
    { rewrite blen_app. unfold blen at 2. rewrite wle_length. reflexivity. }
    eapply eq_trans. { eapply pbind_ok. unfold plift, csub. rewrite L. destruct (N.ltb_spec (blen (event_front true e) + 4) 4); [lia|]. reflexivity. }
    replace (blen (event_front true e) + 4 - 4) with (blen (event_front true e)) by lia.
    assert (split_at (blen (event_front true e)) (event_front true e ++ wle 4 trailer) = (event_front true e, wle 4 trailer)) as S.
    { unfold split_at, blen. rewrite Nat2N.id, firstn_app, skipn_app, Nat.sub_diag, firstn_all, skipn_all.
      rewrite firstn_O, app_nil_r. reflexivity. }
    rewrite S. cbv beta iota. rewrite (no_app _ _ _ (rd_u32 [] trailer Ht)). cbn [fst].
    eapply eq_trans; [eapply pbind_ok; reflexivity|].
    destruct (trailer =? crc (event_front true e)); reflexivity.
  Qed.
  Lemma trailer_repr s : length s = 4%nat -> exists c, c < 2 ^ 32 /\ s = wle 4 c.
  Proof.
    intros H. exists (le_val s). split; [apply (le_val_bound' s 4 H)|]. rewrite <- H. symmetry. apply wle_le_val.
  Qed.

  (** the part after the checksum has been verified (or not) *)
  Definition parse_unchecked (self : parser_v4) : parser (option event) := parse_event crc self false.
  Lemma parse_false self bs : parse_event crc self false bs =
    (header <- read_event_header ;;
     len <- plift (data_len header) ;;
     data <- read_len len ;;
     data <- (if p_checksum self then n <- plift (csub (blen data) 4) ;; pret (fst (split_at n data)) else pret data) ;;
     match event_kind_of (h_type header) with
     | Some k => pret (Some (mk_event k header data))
     | None => pret None
     end) bs.
  Proof. unfold parse_event. rewrite andb_false_r. reflexivity. Qed.
  Lemma parse_true self bs : p_checksum self = true -> parse_event crc self true bs =
    pbind (check_checksum crc) (fun _ => parse_event crc self false) bs.
  Proof. intros H. unfold parse_event. rewrite H. reflexivity. Qed.

  Lemma parse_any_trailer self e trailer rest : log_event_ok (p_checksum self) e ->
    (length trailer = if p_checksum self then 4 else 0)%nat ->
    parse_event crc self false (event_front (p_checksum self) e ++ trailer ++ rest) =
      (Ok (parsed (p_checksum self) e), rest).
  Proof.
    intros H Hl. rewrite parse_false. destruct (header_of_event _ e (trailer ++ rest) H) as (h & Hh & Hlen & Hty & E).
    eapply eq_trans; [eapply pbind_ok; exact E|].
    eapply eq_trans. { eapply pbind_ok. unfold plift, data_len, csub. rewrite Hlen. unfold event_size.
      destruct (N.ltb_spec (19 + N.of_nat (length (le_body e)) + (if p_checksum self then 4 else 0)) 19); [lia|]. reflexivity. }
    eapply eq_trans. { eapply pbind_ok. rewrite app_assoc. apply rd_len. rewrite blen_app. unfold blen. rewrite Hl.
      destruct (p_checksum self); lia. }
    unfold parsed. rewrite Hh. rewrite (kind_of_type (le_code e) (h_type h)) by (symmetry; exact Hty).
    assert ((if p_checksum self then n <- plift (csub (blen (le_body e ++ trailer)) 4) ;; pret (fst (split_at n (le_body e ++ trailer)))
      else pret (le_body e ++ trailer)) rest = (Ok (le_body e), rest)) as D.
    { destruct (p_checksum self).
      - assert (blen (le_body e ++ trailer) = blen (le_body e) + 4) as L by (rewrite blen_app; unfold blen at 2; rewrite Hl; reflexivity).
        rewrite L. unfold csub. destruct (N.ltb_spec (blen (le_body e) + 4) 4); [lia|].
        eapply eq_trans; [eapply pbind_ok; reflexivity|].
        replace (blen (le_body e) + 4 - 4) with (blen (le_body e)) by lia. unfold split_at, blen. cbn [fst].
        rewrite Nat2N.id, firstn_app, Nat.sub_diag, firstn_all, firstn_O, app_nil_r. reflexivity.
      - destruct trailer; [rewrite app_nil_r; reflexivity|discriminate]. }
    eapply eq_trans; [eapply pbind_ok; exact D|]. destruct (kind_with_code (le_code e)); reflexivity.
  Qed.
  Lemma parse_bad_checksum self e trailer rest : p_checksum self = true -> log_event_ok true e -> trailer < 2 ^ 32 ->
    trailer <> crc (event_front true e) ->
    parse_event crc self true (event_front true e ++ wle 4 trailer ++ rest) =
      (Err (EChecksum trailer (crc (event_front true e))), event_front true e ++ wle 4 trailer ++ rest).
  Proof.
    intros Hs H Ht Hne. rewrite (parse_true _ _ Hs). unfold pbind. rewrite (check_spec _ _ _ H Ht).
    apply N.eqb_neq in Hne. rewrite Hne. reflexivity.
  Qed.
  Lemma parse_stored self v e rest : (forall bs, crc bs < 2 ^ 32) -> log_event_ok (p_checksum self) e ->
    parse_event crc self v (stored crc (p_checksum self) e ++ rest) = (Ok (parsed (p_checksum self) e), rest).
  Proof.
    intros Hcrc H. unfold stored. rewrite <- app_assoc.
    assert (parse_event crc self false (event_front (p_checksum self) e ++
       (if p_checksum self then wle 4 (crc (event_front (p_checksum self) e)) else []) ++ rest) =
       (Ok (parsed (p_checksum self) e), rest)) as P.
    { apply parse_any_trailer; [exact H|]. destruct (p_checksum self); [apply wle_length|reflexivity]. }
    destruct v; [|exact P]. destruct (p_checksum self) eqn:Hs.
    - rewrite (parse_true _ _ Hs). unfold pbind. rewrite (check_spec _ _ _ H (Hcrc _)), N.eqb_refl.
      exact P.
    - unfold parse_event in *. rewrite Hs in *. exact P.
  Qed.
  Lemma parse_stored_all self v es rest : (forall bs, crc bs < 2 ^ 32) -> Forall (log_event_ok (p_checksum self)) es ->
    prepeat (length es) (parse_event crc self v) (concat (map (stored crc (p_checksum self)) es) ++ rest) =
      (Ok (map (parsed (p_checksum self)) es), rest).
  Proof.
    intros Hcrc. induction 1 as [|e es He _ IH]; [reflexivity|]. cbn [length prepeat map concat]. rewrite <- app_assoc.
    eapply eq_trans; [eapply pbind_ok; apply parse_stored; [exact Hcrc|exact He]|].
    eapply eq_trans; [eapply pbind_ok; exact IH|]. reflexivity.
  Qed.
  Lemma skip_any self e trailer rest sum : log_event_ok sum e -> (length trailer = if sum then 4 else 0)%nat ->
    skip_event self (event_front sum e ++ trailer ++ rest) = (Ok tt, rest).
  Proof.
    intros H Hl. unfold skip_event. destruct (header_of_event _ e (trailer ++ rest) H) as (h & Hh & Hlen & Hty & E).
    eapply eq_trans; [eapply pbind_ok; exact E|].
    eapply eq_trans. { eapply pbind_ok. unfold plift, data_len, csub. rewrite Hlen. unfold event_size.
      destruct (N.ltb_spec (19 + N.of_nat (length (le_body e)) + (if sum then 4 else 0)) 19); [lia|]. reflexivity. }
    eapply eq_trans. { eapply pbind_ok. rewrite app_assoc. apply rd_len. rewrite blen_app. unfold blen. rewrite Hl.
      destruct sum; lia. }
    reflexivity.
  Qed.

  Lemma parse_inv_false self bs r rest : parse_event crc self false bs = (Ok r, rest) ->
    exists e trailer, log_event_ok (p_checksum self) e /\ (length trailer = if p_checksum self then 4 else 0)%nat /\
      bs = event_front (p_checksum self) e ++ trailer ++ rest /\ r = parsed (p_checksum self) e.
  Proof.
    rewrite parse_false. intros H.
    apply pbind_inv in H as (h & r1 & Hh & H). apply pbind_inv in H as (len & r2 & Hd & H).
    unfold plift in Hd. injection Hd as Hd ->. apply pbind_inv in H as (data & r3 & Hr & H).
    destruct (read_len_inv _ _ _ _ Hr) as [-> Hlen].
    apply pbind_inv in H as (body & r4 & Hb & H).
    assert (r4 = r3 /\ rest = r3 /\ (p_checksum self = true -> 4 <= blen data) /\
      r = option_map (fun k => mk_event k h (firstn (length data - if p_checksum self then 4 else 0) data)) (event_kind_of (h_type h)))
      as (-> & -> & H4 & ->).
    { destruct (p_checksum self).
      - apply pbind_inv in Hb as (n & r5 & Hn & Hb). unfold plift, csub in Hn.
        destruct (N.ltb_spec (blen data) 4); [discriminate|]. injection Hn as <- <-. injection Hb as <- <-.
        assert (N.to_nat (blen data - 4) = length data - 4)%nat as Hn by (unfold blen; lia).
        destruct (event_kind_of (h_type h)); injection H as <- <-; repeat split; auto.
        cbn [option_map]. unfold split_at. cbn [fst]. rewrite Hn. reflexivity.
      - injection Hb as <- <-. rewrite Nat.sub_0_r, firstn_all.
        destruct (event_kind_of (h_type h)); injection H as <- <-; repeat split; auto; discriminate. }
    destruct (header_front (p_checksum self) _ _ _ _ data r3 Hh Hd eq_refl Hlen H4) as (e & trailer & He & Htr & -> & -> & Hf & Hs).
    exists e, trailer. split; [exact He|]. split; [exact Htr|]. split; [reflexivity|]. unfold parsed. rewrite Hf.
    unfold header_for in Hf. destruct (type_with_code (le_code e)) eqn:Ht; [|discriminate]. injection Hf as <-.
    cbn [h_type]. rewrite (kind_of_type _ _ Ht). destruct (kind_with_code (le_code e)); [|reflexivity]. cbn [option_map].
    do 2 f_equal. rewrite app_length, Htr. replace (length (le_body e) + _ - _)%nat with (length (le_body e)) by (destruct (p_checksum self); lia).
    rewrite firstn_app, Nat.sub_diag, firstn_all, firstn_O, app_nil_r. reflexivity.
  Qed.
  Lemma parse_inv_true self bs r rest : p_checksum self = true -> parse_event crc self true bs = (Ok r, rest) ->
    exists e, log_event_ok true e /\ bs = stored crc true e ++ rest /\ r = parsed true e.
  Proof.
    intros Hs H. rewrite (parse_true _ _ Hs) in H. apply pbind_inv in H as ([] & r0 & Hc & H).
    assert (r0 = bs) as ->.
    { unfold check_checksum in Hc. apply pbind_inv in Hc as (h & r1 & H1 & Hc). injection H1 as H1 <-.
      apply pbind_inv in Hc as (raw & r2 & H2 & Hc). injection H2 as H2 <-.
      apply pbind_inv in Hc as (n & r3 & H3 & Hc). injection H3 as H3 <-. unfold split_at in Hc.
      apply pbind_inv in Hc as (x & r4 & H4 & Hc). injection H4 as H4 <-.
      destruct (x =? _); [injection Hc as <-; reflexivity|discriminate]. }
    destruct (parse_inv_false _ _ _ _ H) as (e & trailer & He & Htr & -> & ->). rewrite Hs in *.
    destruct (trailer_repr _ Htr) as (c & Hc2 & ->). rewrite (check_spec _ _ _ He Hc2) in Hc.
    destruct (N.eqb_spec c (crc (event_front true e))) as [->|]; [|discriminate].
    exists e. split; [exact He|]. split; [|reflexivity]. unfold stored. rewrite <- app_assoc. reflexivity.
  Qed.
  Lemma skip_inv self bs rest : skip_event self bs = (Ok tt, rest) -> exists e,
    log_event_ok false e /\ bs = event_front false e ++ rest.
  Proof.
    intros H. unfold skip_event in H.
    apply pbind_inv in H as (h & r1 & Hh & H). apply pbind_inv in H as (len & r2 & Hd & H).
    unfold plift in Hd. injection Hd as Hd ->. apply pbind_inv in H as (data & r3 & Hr & H). injection H as ->.
    destruct (read_len_inv _ _ _ _ Hr) as [-> Hlen].
    destruct (header_front false _ _ _ _ data rest Hh Hd eq_refl Hlen ltac:(discriminate)) as (e & trailer & He & Htr & -> & -> & Hf & Hs).
    destruct trailer; [|discriminate]. exists e. auto.
  Qed.
  Lemma checksum_event_spec self e trailer rest : p_checksum self = true -> log_event_ok true e -> trailer < 2 ^ 32 ->
    checksum_event crc self (event_front true e ++ wle 4 trailer ++ rest) =
    if trailer =? crc (event_front true e) then Ok tt else Err (EChecksum trailer (crc (event_front true e))).
  Proof.
    intros Hs H Ht. assert (forall bs, checksum_event crc self bs = fst (check_checksum crc bs)) as ->.
    { intros bs. unfold checksum_event, check_checksum, pbind, ppeek, plift. rewrite Hs. cbn [negb].
      destruct (fst (read_event_header bs)); try reflexivity. cbn [rbind].
      destruct (fst (read_len (h_event_len a) bs)); try reflexivity. cbn [rbind].
      destruct (csub (blen a0) 4); try reflexivity. cbn [rbind]. unfold split_at.
      destruct (fst (read_le_u32 _)); try reflexivity. cbn [rbind].
      destruct (a2 =? _); reflexivity. }
    rewrite check_spec by assumption. reflexivity.
  Qed.
  (** too short lengths *)
  Lemma parse_short_len self v ts code sid len next flags rest : header_fields_ok ts code sid len next flags ->
    code < 39 -> len < 19 -> p_checksum self && v = false ->
    fst (parse_event crc self v (header_bytes ts code sid len next flags ++ rest)) = Panic PArith.
  Proof.
    intros Hok Hc Hl Hv. unfold parse_event. rewrite Hv.
    rewrite (pbind_ok (pret tt) _ _ tt _ eq_refl).
    destruct (type_with_code_lt code Hc) as (t & Ht).
    pose proof (header_read _ _ _ _ _ _ rest Hok) as E. rewrite Ht in E. rewrite (pbind_ok _ _ _ _ _ E).
    unfold plift, data_len, csub. cbn [h_event_len]. destruct (N.ltb_spec len 19); [|lia]. reflexivity.
  Qed.
  Lemma parse_short_sum self v ts code sid len next flags data rest : header_fields_ok ts code sid len next flags ->
    code < 39 -> p_checksum self = true -> 19 <= len < 23 -> N.of_nat (length data) = len - 19 -> v = false ->
    fst (parse_event crc self v (header_bytes ts code sid len next flags ++ data ++ rest)) = Panic PArith.
  Proof.
    intros Hok Hc Hs Hl Hd ->. rewrite parse_false, Hs.
    destruct (type_with_code_lt code Hc) as (t & Ht).
    pose proof (header_read _ _ _ _ _ _ (data ++ rest) Hok) as E. rewrite Ht in E. rewrite (pbind_ok _ _ _ _ _ E).
    unfold data_len, csub at 1. cbn [h_event_len]. destruct (N.ltb_spec len 19); [lia|].
    rewrite (pbind_ok (plift (Ok (len - 19))) _ _ _ _ eq_refl).
    rewrite (pbind_ok _ _ _ _ _ (rd_len rest data (len - 19) (eq_sym Hd))).
    unfold csub, blen. rewrite Hd. destruct (N.ltb_spec (len - 19) 4); [|lia]. reflexivity.
  Qed.
End Crc.

(** ** format description events and files *)
Lemma utf8_ok s : utf8_valid s = true -> from_utf8 s = Ok s.
Proof. unfold from_utf8. intros ->. reflexivity. Qed.
Lemma start_read v server created rest : v < 2 ^ 16 -> (length server < 50)%nat -> no_nul server ->
  utf8_valid server = true -> created < 2 ^ 32 ->
  read_start_data (wle 2 v ++ server ++ repeat x00 (50 - length server) ++ wle 4 created ++ rest) =
    (Ok (mk_start v server created), rest).
Proof.
  intros Hv Hl Hn Hu Hc. unfold read_start_data. rstep.
  eapply eq_trans. { eapply pbind_ok. rewrite app_assoc. apply rd_len. rewrite blen_app. unfold blen. rewrite repeat_length. lia. }
  assert (read_until x00 false (server ++ repeat x00 (50 - length server)) = (Ok server, repeat x00 (49 - length server))) as E.
  { replace (50 - length server)%nat with (S (49 - length server)) by lia. apply rd_cstr'. exact Hn. }
  rewrite E. cbn [fst]. eapply eq_trans; [eapply pbind_ok; reflexivity|].
  rewrite (utf8_ok _ Hu). eapply eq_trans; [eapply pbind_ok; reflexivity|]. rstep. reflexivity.
Qed.
Definition fde_value (d : fde_spec) : fde_data :=
  mk_fde (fd_version d) (fd_server d) (fd_created d) (fd_header_len d) (fd_lens d)
    match fd_tail d with Some (alg, _) => alg | None => 0 end.
Lemma fde_read d : fde_ok d -> read_fde (fde_body d) =
  (Ok (fde_value d), match fd_tail d with Some (_, sum) => sum | None => [] end).
Proof.
  intros (H1 & H2 & H3 & Hu & H4 & H5 & H6 & H7 & H8). unfold read_fde, fde_body.
  eapply eq_trans; [eapply pbind_ok; apply start_read; assumption|]. rstep.
  set (tail := match fd_tail d with Some (alg, sum) => wle 1 alg ++ sum | None => [] end).
  assert (14 < length (fd_lens d))%nat as Hlen by (apply nth_error_Some; rewrite H6; discriminate).
  eapply eq_trans. { eapply pbind_ok. unfold bget. change (N.to_nat (event_type_code EtFormatDescription) - 1)%nat with 14%nat.
    rewrite nth_error_app1 by exact Hlen. rewrite H6. reflexivity. }
  rewrite b2n_n2b_small by exact H7.
  eapply eq_trans. { eapply pbind_ok. unfold plift, csub.
    destruct (N.ltb_spec (57 + N.of_nat (length (fd_lens d))) 57); [lia|]. reflexivity. }
  replace (57 + N.of_nat (length (fd_lens d)) - 57) with (blen (fd_lens d)) by (unfold blen; lia).
  eapply eq_trans; [eapply pbind_ok; reflexivity|]. cbn [st_binlog_version st_server_version st_create_timestamp].
  rewrite blen_app. unfold fde_value. subst tail. destruct (fd_tail d) as [[alg sum]|].
  - destruct H8 as [Ha Hs]. destruct (N.eqb_spec (blen (fd_lens d) + blen (wle 1 alg ++ sum)) (blen (fd_lens d))) as [E|_].
    { rewrite blen_app in E. unfold blen at 2 in E. rewrite wle_length in E. lia. }
    eapply eq_trans. { eapply pbind_ok. unfold split_to. rewrite blen_app.
      destruct (N.ltb_spec (blen (fd_lens d) + blen (wle 1 alg ++ sum)) (blen (fd_lens d))); [lia|].
      unfold blen. rewrite Nat2N.id, firstn_app, skipn_app, Nat.sub_diag, firstn_all, skipn_all, firstn_O, app_nil_r. reflexivity. }
    cbn [skipn app]. rstep. reflexivity.
  - rewrite blen_nil, N.add_0_r, N.eqb_refl, app_nil_r. reflexivity.
Qed.
Lemma open_fde e d rest : log_event_ok false e -> le_code e = 15 -> fde_ok d -> le_body e = fde_body d ->
  from_fde_bytes (event_front false e ++ rest) =
    (Ok (mk_parser (x00 :: fd_lens d) (match fd_tail d with Some (alg, _) => alg =? 1 | None => false end),
         match fd_tail d with Some (1, sum) => Some (le_val sum) | _ => None end), rest).
Proof.
  intros He Hc Hd Hb. unfold from_fde_bytes. destruct (header_of_event false e rest He) as (h & Hh & Hl & Ht & E).
  eapply eq_trans; [eapply pbind_ok; exact E|].
  eapply eq_trans. { eapply pbind_ok. unfold plift, data_len, csub. rewrite Hl. unfold event_size.
    destruct (N.ltb_spec (19 + N.of_nat (length (le_body e)) + 0) 19); [lia|]. reflexivity. }
  eapply eq_trans. { eapply pbind_ok. apply rd_len. unfold blen. lia. }
  rewrite Hb, (fde_read _ Hd). cbv beta iota.
  eapply eq_trans; [eapply pbind_ok; reflexivity|]. cbv beta.
  unfold fde_value, from_fde, post_header_lengths_from_raw. cbn [fde_post_header_lengths fde_checksum_flag].
  destruct Hd as (_ & _ & _ & _ & _ & _ & _ & _ & H8). destruct (fd_tail d) as [[alg sum]|]; [|reflexivity].
  destruct H8 as [Ha Hs]. destruct (N.eqb_spec alg 1) as [->|Hn].
  - unfold blen. rewrite Hs. change (N.of_nat 4 <? 4) with false. cbv iota.
    assert (read_le_u32 sum = (Ok (le_val sum), [])) as R by (apply no_app, read_le_u32_spec; exact Hs).
    rewrite R. reflexivity.
  - assert (match alg with 1 => Some (le_val sum) | _ => None end = None) as ->; [|reflexivity].
    destruct alg as [|[p|p|]]; congruence.
Qed.
Lemma beqb_refl s : beqb s s = true.
Proof. destruct (beqb_spec s s); congruence. Qed.
Lemma open_file e d rest : log_event_ok false e -> le_code e = 15 -> fde_ok d -> le_body e = fde_body d ->
  from_binlog_file (file_bytes e rest) =
    (Ok (mk_parser (x00 :: fd_lens d) (match fd_tail d with Some (alg, _) => alg =? 1 | None => false end)), rest).
Proof.
  intros He Hc Hd Hb. unfold from_binlog_file, file_bytes.
  assert (read_binlog_version (file_magic ++ event_front false e ++ rest) = (Ok V4, event_front false e ++ rest)) as E.
  { unfold read_binlog_version. eapply eq_trans; [eapply pbind_ok; apply rd_len; reflexivity|].
    change (beqb file_magic magic) with true. cbn [negb].
    destruct (header_of_event false e rest He) as (h & Hh & Hl & Ht & E).
    eapply eq_trans; [eapply pbind_ok; unfold ppeek; rewrite E; reflexivity|].
    rewrite Hc in Ht. injection Ht as ->. reflexivity. }
  eapply eq_trans; [eapply pbind_ok; exact E|]. cbv iota.
  eapply eq_trans; [eapply pbind_ok; apply open_fde; eassumption|]. reflexivity.
Qed.

(** *** what an accepted file is *)
Lemma version_inv bs v rest : read_binlog_version bs = (Ok v, rest) -> exists h,
  bs = file_magic ++ rest /\ fst (read_event_header rest) = Ok h /\
  match v with V4 => h_type h = EtFormatDescription | _ => h_type h = EtStartEventV3 end.
Proof.
  unfold read_binlog_version. intros H. apply pbind_inv in H as (m & r & Hm & H).
  destruct (read_len_inv _ _ _ _ Hm) as [-> Hl]. destruct (beqb_spec m magic) as [->|]; [|discriminate]. cbn [negb] in H.
  apply pbind_inv in H as (h & r2 & Hh & H). unfold ppeek in Hh. injection Hh as Hh <-. exists h.
  destruct (h_type h) eqn:E; try discriminate.
  - destruct (h_event_len h <? 75); injection H as <- <-; auto.
  - injection H as <- <-. auto.
Qed.
Lemma start_inv bs st rest : read_start_data bs = (Ok st, rest) -> exists v field created,
  bs = wle 2 v ++ field ++ wle 4 created ++ rest /\ length field = 50%nat.
Proof.
  unfold read_start_data. intros H. apply pbind_inv in H as (v & r & Hv & H).
  apply pbind_inv in H as (field & r2 & Hf & H). destruct (read_len_inv _ _ _ _ Hf) as [-> Hl].
  apply pbind_inv in H as (s & r3 & Hs & H). injection Hs as _ <-.
  apply pbind_inv in H as (s2 & r4 & Hs2 & H). injection Hs2 as _ <-.
  apply pbind_inv in H as (c & r5 & Hc & H). injection H as _ <-.
  apply pmap_inv in Hv as (a & Ha & _). apply pmap_inv in Hc as (b & Hb & _).
  apply take_inv in Ha as [-> Ha]. apply take_inv in Hb as [-> Hb].
  exists (le_val a), field, (le_val b). split; [|unfold blen in Hl; lia].
  rewrite <- Ha at 1. rewrite <- Hb at 1. rewrite !wle_le_val. reflexivity.
Qed.
Lemma fde_inv bs d rest : read_fde bs = (Ok d, rest) -> exists v field created hl table own,
  bs = wle 2 v ++ field ++ wle 4 created ++ wle 1 hl ++ table /\ length field = 50%nat /\
  nth_error table 14 = Some own /\ 57 <= b2n own /\ (N.to_nat (b2n own - 57) <= length table)%nat /\
  fde_post_header_lengths d = firstn (N.to_nat (b2n own - 57)) table /\
  fde_checksum_flag d = match nth_error table (N.to_nat (b2n own - 57)) with Some b => b2n b | None => 0 end /\
  rest = skipn (S (N.to_nat (b2n own - 57))) table.
Proof.
  unfold read_fde. intros H. apply pbind_inv in H as (st & r & Hs & H).
  destruct (start_inv _ _ _ Hs) as (v & field & created & -> & Hf).
  apply pbind_inv in H as (hl & r2 & Hh & H). destruct r as [|b table]; [discriminate|].
  injection Hh as <- <-.
  apply pbind_inv in H as (own & r3 & Ho & H). injection Ho as Ho <-.
  change (N.to_nat (event_type_code EtFormatDescription) - 1)%nat with 14%nat in Ho.
  unfold bget in Ho. destruct (nth_error table 14) as [own'|] eqn:En; [|discriminate]. injection Ho as ->.
  apply pbind_inv in H as (n & r4 & Hn & H). injection Hn as Hn <-. unfold csub in Hn.
  destruct (N.ltb_spec (b2n own) 57); [discriminate|]. injection Hn as <-.
  apply pbind_inv in H as (rem & r5 & Hr & H). injection Hr as <- <-.
  exists v, field, created, (b2n b), table, own.
  split; [change (wle 1 (b2n b)) with [n2b (b2n b mod 256)]; rewrite (N.mod_small (b2n b)) by apply b2n_lt; rewrite n2b_b2n; reflexivity|].
  split; [exact Hf|]. split; [exact En|]. split; [assumption|].
  set (k := b2n own - 57) in *. clearbody k.
  destruct (N.eqb_spec (blen table) k) as [E|E].
  - unfold read_rest, pbind in H. injection H as <- <-. cbn [fde_post_header_lengths fde_checksum_flag].
    assert (N.to_nat k = length table) as -> by (unfold blen in E; lia).
    rewrite firstn_all. assert (nth_error table (length table) = None) as -> by (apply nth_error_None; lia).
    repeat split; try lia. symmetry. apply skipn_all2. lia.
  - apply pbind_inv in H as (lens & r6 & Hl & H). unfold split_to in Hl.
    destruct (N.ltb_spec (blen table) k); [discriminate|]. injection Hl as <- <-.
    apply pbind_inv in H as (flag & r7 & Hfl & H). injection H as <- <-. cbn [fde_post_header_lengths fde_checksum_flag].
    unfold blen in *. split; [lia|]. split; [reflexivity|].
    destruct (skipn (N.to_nat k) table) as [|x xs] eqn:Es; [discriminate|]. injection Hfl as <- <-.
    assert (table = firstn (N.to_nat k) table ++ x :: xs) as Et by (rewrite <- Es; symmetry; apply firstn_skipn).
    assert (length (firstn (N.to_nat k) table) = N.to_nat k) as El by (apply firstn_length_le; lia).
    split.
    + rewrite Et, nth_error_app2 by lia. rewrite El, Nat.sub_diag. reflexivity.
    + rewrite Et. rewrite <- El at 1. rewrite skipn_app. rewrite skipn_all2 by lia.
      replace (S _ - _)%nat with 1%nat by lia. reflexivity.
Qed.
Lemma open_inv bs p rest : from_binlog_file bs = (Ok p, rest) -> exists e v field created hl table own,
  bs = file_bytes e rest /\ log_event_ok false e /\ le_code e = 15 /\
  le_body e = wle 2 v ++ field ++ wle 4 created ++ wle 1 hl ++ table /\ length field = 50%nat /\
  nth_error table 14 = Some own /\ 57 <= b2n own /\ (N.to_nat (b2n own - 57) <= length table)%nat /\
  p_post_header_lengths p = x00 :: firstn (N.to_nat (b2n own - 57)) table /\
  (p_checksum p = true <-> nth_error table (N.to_nat (b2n own - 57)) = Some x01) /\
  (p_checksum p = true -> (N.to_nat (b2n own - 57) + 5 <= length table)%nat).
Proof.
  unfold from_binlog_file. intros H. apply pbind_inv in H as (v & r & Hv & H).
  destruct (version_inv _ _ _ Hv) as (h & -> & Hh & Hty). destruct v; try discriminate.
  apply pbind_inv in H as ([p' c] & r2 & Hf & H). injection H as -> <-.
  unfold from_fde_bytes in Hf. apply pbind_inv in Hf as (h' & r3 & Hh' & Hf).
  rewrite Hh' in Hh. injection Hh as ->.
  apply pbind_inv in Hf as (len & r4 & Hd & Hf). injection Hd as Hd <-.
  apply pbind_inv in Hf as (data & r5 & Hr & Hf). destruct (read_len_inv _ _ _ _ Hr) as [-> Hlen].
  destruct (header_front false _ _ _ _ data r5 Hh' Hd eq_refl Hlen ltac:(discriminate)) as (e & trailer & He & Htr & -> & -> & Hfor & Hs).
  destruct trailer; [|discriminate]. rewrite app_nil_r in *.
  destruct (read_fde (le_body e)) as [r6 raw] eqn:Efde.
  apply pbind_inv in Hf as (d & r7 & Hd2 & Hf). injection Hd2 as -> <-.
  apply pbind_inv in Hf as (crc & r8 & Hc & Hf). injection Hf as <- <- <-.
  destruct (fde_inv _ _ _ Efde) as (v & field & created & hl & table & own & Hb & Hl & Hn & Hle & Hk & Hp & Hfl & Hrest).
  assert (r8 = r5) as ->.
  { destruct (fde_checksum_flag d =? 1); [|injection Hc as _ <-; reflexivity].
    destruct (blen raw <? 4); [discriminate|]. apply pbind_inv in Hc as (y & r9 & Hy & Hc).
    injection Hy as _ <-. injection Hc as _ <-. reflexivity. }
  exists e, v, field, created, hl, table, own. unfold file_bytes. splits; try assumption; try reflexivity.
  - unfold header_for in Hfor. destruct (type_with_code (le_code e)) eqn:Et; [|discriminate]. injection Hfor as <-.
    cbn [h_type] in Hty. subst. destruct (type_with_code_inv _ _ Et) as [-> _]. reflexivity.
  - cbn [from_fde p_post_header_lengths]. unfold post_header_lengths_from_raw. rewrite Hp. reflexivity.
  - cbn [from_fde p_checksum]. rewrite Hfl. destruct (nth_error table (N.to_nat (b2n own - 57))) as [b|]; [|split; intros X; discriminate X].
    destruct (N.eqb_spec (b2n b) 1) as [E|E].
    + split; [intros _|reflexivity]. f_equal. apply b2n_inj. exact E.
    + split; [discriminate|]. intros X. injection X as ->. exfalso. apply E. reflexivity.
  - cbn [from_fde p_checksum]. intros E. rewrite E in Hc. rewrite Hrest in Hc. unfold blen in Hc. rewrite skipn_length in Hc.
    destruct (N.ltb_spec (N.of_nat (length table - S (N.to_nat (b2n own - 57)))) 4); [discriminate|]. lia.
Qed.
Lemma open_no_magic bs : (forall rest, bs <> file_magic ++ rest) ->
  (exists k, fst (from_binlog_file bs) = Err (EIncomplete (Some k))) \/ fst (from_binlog_file bs) = Err EConstraint.
Proof.
  intros H. unfold from_binlog_file, read_binlog_version. rewrite pbind_assoc.
  destruct (N.ltb_spec (blen bs) 4) as [Hl|Hl].
  - left. eexists. unfold pbind. rewrite read_len_short by exact Hl. reflexivity.
  - right. destruct (split_len 4 bs) as (m & r & -> & Hm); [unfold blen in Hl; lia|].
    rewrite (pbind_ok _ _ _ _ _ (rd_len r m 4 ltac:(unfold blen; rewrite Hm; reflexivity))).
    destruct (beqb_spec m magic) as [->|]; [|reflexivity]. exfalso. apply (H r). reflexivity.
Qed.
Lemma open_other_event e rest : log_event_ok false e -> le_code e <> 15 ->
  fst (from_binlog_file (file_bytes e rest)) = Err (if le_code e =? 1 then EBinlogFormat else EConstraint).
Proof.
  intros He Hc. unfold from_binlog_file, read_binlog_version, file_bytes. rewrite pbind_assoc.
  rewrite (pbind_ok _ _ _ _ _ (rd_len (event_front false e ++ rest) file_magic 4 eq_refl)).
  change (beqb file_magic magic) with true. cbn [negb].
  destruct (header_of_event false e rest He) as (h & Hh & Hl & Ht & E). rewrite pbind_assoc.
  rewrite (pbind_ok (ppeek read_event_header) _ (event_front false e ++ rest) h (event_front false e ++ rest)) by (unfold ppeek; rewrite E; reflexivity).
  symmetry in Ht. destruct (type_with_code_inv _ _ Ht) as [Hcode _]. rewrite Hcode in *.
  destruct (h_type h); cbn [event_type_code] in *; try reflexivity; try congruence.
  destruct (h_event_len h <? 75); reflexivity.
Qed.

Lemma checksum_event_off crc self bs : p_checksum self = false -> checksum_event crc self bs = Err EBinlogFormat.
Proof. intros H. unfold checksum_event. rewrite H. reflexivity. Qed.
Lemma crc_bits_lt n : forall c, c < 2 ^ 32 -> crc_bits n c < 2 ^ 32.
Proof.
  induction n as [|n IH]; intros c H; [exact H|]. cbn [crc_bits]. apply IH. destruct (N.odd c); [|lia].
  destruct (N.eq_dec (N.lxor (c / 2) 0xEDB88320) 0) as [->|Hz]; [reflexivity|].
  apply N.log2_lt_pow2; [lia|]. pose proof (N.log2_lxor (c / 2) 0xEDB88320) as L.
  assert (N.log2 (c / 2) < 32). { destruct (N.eq_dec (c / 2) 0) as [->|]; [reflexivity|]. apply N.log2_lt_pow2; lia. }
  change (N.log2 0xEDB88320) with 31 in L. lia.
Qed.
Lemma lxor_lt_32 a b : a < 2 ^ 32 -> b < 2 ^ 32 -> N.lxor a b < 2 ^ 32.
Proof.
  intros Ha Hb. destruct (N.eq_dec (N.lxor a b) 0) as [->|Hz]; [reflexivity|].
  apply N.log2_lt_pow2; [lia|]. pose proof (N.log2_lxor a b) as L.
  assert (forall x, x < 2 ^ 32 -> N.log2 x < 32) as T.
  { intros x Hx. destruct (N.eq_dec x 0) as [->|]; [reflexivity|]. apply N.log2_lt_pow2; lia. }
  pose proof (T a Ha). pose proof (T b Hb). lia.
Qed.
Lemma crc32_lt bs : crc32 bs < 2 ^ 32.
Proof.
  unfold crc32. apply lxor_lt_32; [|reflexivity].
  assert (forall c, c < 2 ^ 32 -> fold_left (fun c b => crc_bits 8 (N.lxor c (b2n b))) bs c < 2 ^ 32) as T; [|apply T; reflexivity].
  induction bs as [|b bs IH]; intros c Hc; [exact Hc|]. cbn [fold_left]. apply IH, crc_bits_lt, lxor_lt_32; [exact Hc|].
  pose proof (b2n_lt b). change (2 ^ 32) with 4294967296. lia.
Qed.
(** opening a whole log *)
Lemma read_log crc v e d es : (forall bs, crc bs < 2 ^ 32) ->
  log_event_ok false e -> le_code e = 15 -> fde_ok d -> le_body e = fde_body d ->
  Forall (log_event_ok (match fd_tail d with Some (alg, _) => alg =? 1 | None => false end)) es ->
  (p <- from_binlog_file ;; prepeat (length es) (parse_event crc p v))
    (file_bytes e (concat (map (stored crc (match fd_tail d with Some (alg, _) => alg =? 1 | None => false end)) es))) =
  (Ok (map (parsed (match fd_tail d with Some (alg, _) => alg =? 1 | None => false end)) es), []).
Proof.
  intros Hcrc He Hc Hd Hb Hes. eapply eq_trans; [eapply pbind_ok; apply open_file; eassumption|].
  set (sum := match fd_tail d with Some (alg, _) => alg =? 1 | None => false end) in *.
  apply no_app. apply (parse_stored_all crc (mk_parser (x00 :: fd_lens d) sum) v es [] Hcrc Hes).
Qed.
(** skipping is parsing without looking *)
Lemma skip_parse crc self bs r rest : parse_event crc self false bs = (Ok r, rest) -> skip_event self bs = (Ok tt, rest).
Proof.
  intros H. destruct (parse_inv_false _ _ _ _ _ H) as (e & tr & He & Ht & -> & _). apply (skip_any crc self e tr rest _ He Ht).
Qed.
(** ** the statements of C29-C33 *)
Lemma header_any bs rest : length bs = 19%nat ->
  exists timestamp code server_id len next_pos flags,
    header_fields_ok timestamp code server_id len next_pos flags /\
    bs = header_bytes timestamp code server_id len next_pos flags /\
    match type_with_code code with
    | Some t => read_event_header (bs ++ rest) = (Ok (mk_header timestamp t server_id len next_pos (flags mod 1024)), rest)
    | None => fst (read_event_header (bs ++ rest)) = Err EConstraint
    end.
Proof.
  intros H. destruct (header_surj bs) as (ts & code & sid & len & next & flags & r & Hok & ->); [lia|].
  rewrite app_length, header_length in H. destruct r; [|cbn in H; lia]. rewrite app_nil_r.
  exists ts, code, sid, len, next, flags. split; [exact Hok|]. split; [reflexivity|].
  rewrite (header_read _ _ _ _ _ _ _ Hok). destruct (type_with_code code); reflexivity.
Qed.
Lemma header_v1_read timestamp code server_id len rest : timestamp < 2 ^ 32 -> code < 2 ^ 8 -> server_id < 2 ^ 32 ->
  len < 2 ^ 32 ->
  read_event_header_v1 (wle 4 timestamp ++ wle 1 code ++ wle 4 server_id ++ wle 4 len ++ rest) =
    (match type_with_code code with Some t => Ok (mk_header_v1 timestamp t server_id len) | None => Err EConstraint end, rest).
Proof.
  intros. unfold read_event_header_v1. rsteps. rewrite event_type_of_spec. destruct (type_with_code code); reflexivity.
Qed.
Lemma data_len_ok h : 19 <= h_event_len h -> data_len h = Ok (h_event_len h - 19).
Proof. intros H. unfold data_len, csub. destruct (N.ltb_spec (h_event_len h) 19); [lia|reflexivity]. Qed.
Lemma data_len_short h : h_event_len h < 19 -> data_len h = Panic PArith.
Proof. intros H. unfold data_len, csub. destruct (N.ltb_spec (h_event_len h) 19); [reflexivity|lia]. Qed.
Lemma event_type_round_trip t : event_type_of (event_type_code t) = Ok t /\ event_type_code t < 39.
Proof. split; [|destruct t; reflexivity]. rewrite event_type_of_spec, event_type_code_spec. reflexivity. Qed.
Lemma event_type_inj t u : event_type_code t = event_type_code u -> t = u.
Proof. intros H. pose proof (event_type_code_spec t) as E. rewrite H, event_type_code_spec in E. congruence. Qed.
Lemma event_type_codes code :
  event_type_of code = match type_with_code code with Some t => Ok t | None => Err EConstraint end /\
  (code < 39 <-> exists t, event_type_of code = Ok t /\ event_type_code t = code).
Proof.
  split; [apply event_type_of_spec|]. split.
  - intros H. destruct (type_with_code_lt _ H) as (t & Ht). exists t. rewrite event_type_of_spec, Ht. split; [reflexivity|].
    symmetry. apply type_with_code_inv. exact Ht.
  - intros (t & _ & <-). apply event_type_round_trip.
Qed.
Lemma parse_sound crc self validate bs r rest : parse_event crc self validate bs = (Ok r, rest) ->
  exists e trailer, log_event_ok (p_checksum self) e /\ (length trailer = if p_checksum self then 4 else 0)%nat /\
    bs = event_front (p_checksum self) e ++ trailer ++ rest /\
    N.of_nat (length bs) = event_size (p_checksum self) e + N.of_nat (length rest) /\ r = parsed (p_checksum self) e.
Proof.
  intros H. assert (exists e trailer, log_event_ok (p_checksum self) e /\ (length trailer = if p_checksum self then 4 else 0)%nat /\
    bs = event_front (p_checksum self) e ++ trailer ++ rest /\ r = parsed (p_checksum self) e) as (e & tr & H1 & H2 & H3 & H4).
  { destruct validate, (p_checksum self) eqn:Hs.
    - destruct (parse_inv_true _ _ _ _ _ Hs H) as (e & He & -> & ->). exists e, (wle 4 (crc (event_front true e))).
      unfold stored. rewrite <- app_assoc. auto using wle_length.
    - assert (parse_event crc self false bs = (Ok r, rest)) as H'.
      { unfold parse_event in *. rewrite Hs in *. exact H. }
      apply parse_inv_false in H'. rewrite Hs in H'. exact H'.
    - apply parse_inv_false in H. rewrite Hs in H. exact H.
    - apply parse_inv_false in H. rewrite Hs in H. exact H. }
  exists e, tr. splits; try assumption. rewrite H3, !app_length, H2. pose proof (front_length (p_checksum self) e) as L.
  unfold blen in L. unfold event_size. destruct (p_checksum self); lia.
Qed.
Lemma skip_stored crc self sum e rest : log_event_ok sum e -> skip_event self (stored crc sum e ++ rest) = (Ok tt, rest).
Proof.
  intros H. unfold stored. rewrite <- app_assoc. apply (skip_any crc self e _ rest sum H). destruct sum; [apply wle_length|reflexivity].
Qed.
Lemma parse_short crc self timestamp code server_id len next_pos flags data rest :
  header_fields_ok timestamp code server_id len next_pos flags -> code < 39 ->
  len < 19 \/ (p_checksum self = true /\ 19 <= len < 23 /\ N.of_nat (length data) = len - 19) ->
  fst (parse_event crc self false (header_bytes timestamp code server_id len next_pos flags ++ data ++ rest)) = Panic PArith.
Proof.
  intros Hok Hc [Hl|(Hs & Hl & Hd)].
  - apply parse_short_len; try assumption. apply andb_false_r.
  - apply parse_short_sum; try assumption; reflexivity.
Qed.
Lemma parse_unvalidated crc self e trailer rest : p_checksum self = true -> log_event_ok true e ->
  length trailer = 4%nat ->
  parse_event crc self false (event_front true e ++ trailer ++ rest) = (Ok (parsed true e), rest).
Proof. intros Hs H Ht. pose proof (parse_any_trailer crc self e trailer rest) as P. rewrite Hs in P. auto. Qed.
Lemma checksum_event_all crc self e trailer rest : log_event_ok true e -> trailer < 2 ^ 32 ->
  checksum_event crc self (event_front true e ++ wle 4 trailer ++ rest) =
    if p_checksum self
    then if trailer =? crc (event_front true e) then Ok tt else Err (EChecksum trailer (crc (event_front true e)))
    else Err EBinlogFormat.
Proof.
  intros H Ht. destruct (p_checksum self) eqn:Hs; [apply checksum_event_spec; assumption|apply checksum_event_off; exact Hs].
Qed.
