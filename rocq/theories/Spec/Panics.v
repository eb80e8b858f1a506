(** * Specification: exactly which messages bring a decoder down

    Spec/Catalogue.v describes the values on which the decoders of single values panic.  Here the messages made of
    several parts: where in the message the fatal part is, and what has to be in front of it for the decoder to get
    there.  "Can be read" is said of single values only, whose forms are those of C22 and C36. *)
From Coq Require Import List NArith ZArith Arith Bool.
From Verif Require Import Model.Base Model.Utf8 Model.Col Spec.Nums Spec.Wire Spec.BitmapSpec Spec.Decoders Spec.Catalogue.
Import ListNotations.
Open Scope N_scope.

(** ** Events *)
(** a whole header: 19 bytes, the fifth of them the code of an event type *)
Definition whole_header (bs : bytes) : Prop := (19 <= length bs)%nat /\ b2n (nth 4 bs x00) <= 38.
(** the last four of the first [n] bytes are the checksum of those before them *)
Definition sealed (crc : bytes -> N) (n : N) (bs : bytes) : Prop :=
  n <= N.of_nat (length bs) /\ exists body sum, firstn (N.to_nat n) bs = body ++ sum /\ length sum = 4%nat /\ le_val sum = crc body.
(** an event that announces fewer bytes than its header takes; and in a log with checksums, than its header and its
    checksum take.  If the checksum is checked it is checked first *)
Definition event_panics (crc : bytes -> N) (checksums checked : bool) (bs : bytes) : Prop :=
  whole_header bs /\
  let n := announced_length bs in
  if checksums then
    if checked then n < 4 \/ (n < 23 /\ sealed crc n bs)
    else n < 19 \/ (n < 23 /\ n <= N.of_nat (length bs))
  else n < 19.
(** the event at the start of a log file *)
Definition fde_event_panics (bs : bytes) (w : panic) : Prop :=
  whole_header bs /\
  ((w = PArith /\ announced_length bs < 19) \/
   (19 <= announced_length bs /\ announced_length bs <= N.of_nat (length bs) /\
    fde_panics (firstn (N.to_nat (announced_length bs - 19)) (skipn 19 bs)) w)).

(** ** Rows of a result set *)
(** columns [cts] from number [i] on, of which those with [null] are left out: a DOUBLE cut short, after values that can be read *)
Inductive cells_panic (null : nat -> bool) : nat -> list column_type -> bytes -> Prop :=
| cp_here i cts bs : null i = false -> (5 <= length bs <= 7)%nat -> cells_panic null i (TDouble :: cts) bs
| cp_null i ct cts bs : null i = true -> cells_panic null (S i) cts bs -> cells_panic null i (ct :: cts) bs
| cp_value i ct cts bs v rest : null i = false -> read_binary_value ct bs = (Ok v, rest) ->
    cells_panic null (S i) cts rest -> cells_panic null i (ct :: cts) bs.
(** a byte, the bitmap of the NULL columns (two bits of it unused), the values *)
Definition binary_row_panics (cts : list column_type) (bs : bytes) : Prop :=
  exists b bitmap values, bs = b :: bitmap ++ values /\ length bitmap = ((length cts + 9) / 8)%nat /\
    cells_panic (fun i => bit bitmap (i + 2)) 0 cts values.

(** ** Table maps *)
(** the bytes of metadata of a column type; none for a type that is not known *)
Definition metadata_size (code : byte) : option nat :=
  let c := b2n code in
  if existsb (N.eqb c) [0; 1; 2; 3; 6; 8; 9; 10; 13] then Some 0%nat
  else if existsb (N.eqb c) [4; 5; 17; 18; 19; 249; 250; 251; 252; 255] then Some 1%nat
  else if existsb (N.eqb c) [15; 16; 246; 253; 254] then Some 2%nat
  else None.
(** the first byte of a CHAR's metadata names ENUM or CHAR itself *)
Definition char_type (b : byte) : Prop := b2n b mod 16 = 7 \/ b2n b mod 16 = 14.
(** [meta] are the metadata of the columns [cols] *)
Inductive metadata : bytes -> bytes -> Prop :=
| md_none : metadata [] []
| md_column code own cols meta : metadata_size code = Some (length own) -> (code = xfe -> char_type (hd x00 own)) ->
    metadata cols meta -> metadata (code :: cols) (own ++ meta).
(** a column that brings the decoder down, [meta]: the metadata from it on *)
Definition column_panics (code : byte) (meta : bytes) : Prop :=
  In (b2n code) [7; 11; 12] \/ (code = xfe /\ exists b c rest, meta = b :: c :: rest /\ ~ char_type b).
(** a table map that is complete (names, columns, metadata, bitmap of the columns that may be NULL) and has such a
    column, with known columns in front of it *)
Definition table_map_panics (payload : bytes) : Prop :=
  exists n1 schema f1 n2 table f2 count cols size meta bitmap rest,
    payload = n1 :: schema ++ f1 :: n2 :: table ++ f2 :: count ++ cols ++ size ++ meta ++ bitmap ++ rest /\
    N.of_nat (length schema) = b2n n1 /\ utf8_valid schema = true /\
    N.of_nat (length table) = b2n n2 /\ utf8_valid table = true /\
    dlenenc count = Some (N.of_nat (length cols), []) /\ dlenenc size = Some (N.of_nat (length meta), []) /\
    length bitmap = ((length cols + 7) / 8)%nat /\
    exists front code back read left, cols = front ++ code :: back /\ meta = read ++ left /\
      metadata front read /\ column_panics code left.

(** ** Row events *)
(** how many of the columns before column [i] are in the image *)
Definition rank (present : bytes) (i : nat) : nat := length (filter (bit present) (seq 0 i)).
(** column [i] has a value in the image: it is there and not NULL (NULL bits are counted by the columns there) *)
Definition has_value (present nulls : bytes) (i : nat) : bool := bit present i && negb (bit nulls (rank present i)).
(** columns [i] to [j - 1] can be read from [bs], leaving [rest] *)
Inductive columns_read (value : nat -> bool) (metas : list column_meta) : nat -> bytes -> nat -> bytes -> Prop :=
| cr_none i bs : columns_read value metas i bs i bs
| cr_left_out i bs j rest : value i = false -> columns_read value metas (S i) bs j rest -> columns_read value metas i bs j rest
| cr_value i m v bs mid j rest : value i = true -> nth_error metas i = Some m -> read_binlog_value m bs = (Ok v, mid) ->
    columns_read value metas (S i) mid j rest -> columns_read value metas i bs j rest.
(** an image of a row of [n] columns: the NULL bits of the columns there, then the values *)
Definition image_read (n : N) (present : bytes) (metas : list column_meta) (bs rest : bytes) : Prop :=
  exists nulls values, bs = nulls ++ values /\ length nulls = ((rank present (N.to_nat n) + 7) / 8)%nat /\
    columns_read (has_value present nulls) metas 0 values (N.to_nat n) rest.
Definition image_panics (n : N) (present : bytes) (metas : list column_meta) (bs : bytes) (w : panic) : Prop :=
  exists nulls values i rest, bs = nulls ++ values /\ length nulls = ((rank present (N.to_nat n) + 7) / 8)%nat /\
    columns_read (has_value present nulls) metas 0 values i rest /\ (i < N.to_nat n)%nat /\ has_value present nulls i = true /\
    match nth_error metas i with
    | Some m => value_panics m rest w
    | None => w = PIndex
    end.
(** any number of images, one after the other; there is something left before each *)
Inductive images (image : bytes -> bytes -> Prop) : bytes -> bytes -> Prop :=
| im_none bs : images image bs bs
| im_more bs mid rest : bs <> [] -> image bs mid -> images image mid rest -> images image bs rest.
Definition images_panic (image : bytes -> bytes -> Prop) (fatal : bytes -> panic -> Prop) (bs : bytes) (w : panic) : Prop :=
  exists rest, images image bs rest /\ rest <> [] /\ fatal rest w.
(** the extra data and the number of columns; [body]: what is left if they are in order *)
Definition row_head_panics (extra_len : N) (payload : bytes) (w : panic) : Prop :=
  w = PArith /\ (extra_len < 2 \/ exists n rest, announces extra_len payload n rest /\ 2 ^ 32 - 7 <= n).
Definition row_body (extra_len : N) (payload : bytes) (n : N) (body : bytes) : Prop :=
  announces extra_len payload n body /\ n < 2 ^ 32 - 7.
Definition bitmap_of (n : N) (bm : bytes) : Prop := N.of_nat (length bm) = (n + 7) / 8.
(** events of inserted and deleted rows *)
Definition rows_panic (extra_len : N) (metas : list column_meta) (payload : bytes) (w : panic) : Prop :=
  row_head_panics extra_len payload w \/
  exists n present body, row_body extra_len payload n (present ++ body) /\ bitmap_of n present /\
    images_panic (image_read n present metas) (image_panics n present metas) body w.
(** events of updated rows: an image before and one after *)
Definition pair_read (n : N) (before after : bytes) (metas : list column_meta) (bs rest : bytes) : Prop :=
  exists mid, image_read n before metas bs mid /\ image_read n after metas mid rest.
Definition pair_panics (n : N) (before after : bytes) (metas : list column_meta) (bs : bytes) (w : panic) : Prop :=
  image_panics n before metas bs w \/ exists mid, image_read n before metas bs mid /\ image_panics n after metas mid w.
Definition update_rows_panic (extra_len : N) (metas : list column_meta) (payload : bytes) (w : panic) : Prop :=
  row_head_panics extra_len payload w \/
  exists n before after body, row_body extra_len payload n (before ++ after ++ body) /\ bitmap_of n before /\ bitmap_of n after /\
    images_panic (pair_read n before after metas) (pair_panics n before after metas) body w.
(** no column is there, but something follows: the loop over the rows never ends *)
Definition rows_endless (extra_len : N) (payload : bytes) : Prop :=
  exists n present body, row_body extra_len payload n (present ++ body) /\ none_present n present /\ body <> [].
Definition update_rows_endless (extra_len : N) (payload : bytes) : Prop :=
  exists n before after body, row_body extra_len payload n (before ++ after ++ body) /\
    none_present n before /\ none_present n after /\ body <> [].

(** ** GTID sets *)
(** intervals of transaction numbers after [last], each later than the one before and not empty *)
Inductive intervals : N -> bytes -> Prop :=
| iv_none last : intervals last []
| iv_more last a b more : length a = 8%nat -> length b = 8%nat -> last < le_val a -> le_val a < le_val b ->
    intervals (le_val b) more -> intervals last (a ++ b ++ more).
(** the entry of a server: its id, the number of intervals, the intervals *)
Definition gtid_entry (e : bytes) : Prop :=
  exists sid count ivs, e = sid ++ count ++ ivs /\ length sid = 16%nat /\ length count = 8%nat /\
    N.of_nat (length ivs) = 16 * le_val count /\ intervals 0 ivs.
(** entries up to one with 2^59 intervals or more; [limit]: how many servers there can be.  The number of servers
    itself may be too large as well *)
Definition set_panics (entry : bytes -> Prop) (limit : N) (bs : bytes) : Prop :=
  exists count body, bs = count ++ body /\ length count = 8%nat /\
    (limit <= le_val count \/
     exists entries sid ivs rest, body = concat entries ++ sid ++ ivs ++ rest /\ Forall entry entries /\
       N.of_nat (length entries) < le_val count /\ length sid = 16%nat /\ length ivs = 8%nat /\ 2 ^ 59 <= le_val ivs).
(** a hash table of more than 7/8 of 2^58 entries does not fit *)
Definition gtid_set_panics : bytes -> Prop := set_panics gtid_entry (7 * 2 ^ 55 + 1).
(** the entries of a dump request may have any intervals *)
Definition sid_entry (e : bytes) : Prop :=
  exists sid count ivs, e = sid ++ count ++ ivs /\ length sid = 16%nat /\ length count = 8%nat /\
    N.of_nat (length ivs) = 16 * le_val count.
(** a list of 2^63 / 40 of them does not fit *)
Definition sid_data_panics : bytes -> Prop := set_panics sid_entry (2 ^ 63 / 40 + 1).
(** a request for a dump by GTID *)
Definition dump_gtid_panics (bs : bytes) : Prop :=
  exists cmd flags server flen file pos dlen data rest,
    bs = cmd :: flags ++ server ++ flen ++ file ++ pos ++ dlen ++ data ++ rest /\ b2n cmd <= 31 /\
    length flags = 2%nat /\ le_val flags < 8 /\ length server = 4%nat /\ length flen = 4%nat /\
    N.of_nat (length file) = le_val flen /\ utf8_valid file = true /\ length pos = 8%nat /\
    length dlen = 4%nat /\ N.of_nat (length data) = le_val dlen /\ sid_data_panics data.

(** ** LOAD events of MySQL 4.0 on *)
(** a string after its length *)
Definition short_string (bs : bytes) : Prop := exists n s, bs = n :: s /\ N.of_nat (length s) = b2n n.
Definition new_load_too_long (bs : bytes) : Prop :=
  exists a count strings opt lens rest, bs = a ++ count ++ concat strings ++ opt :: lens ++ rest /\ length a = 14%nat /\
    length count = 4%nat /\ length strings = 5%nat /\ Forall short_string strings /\ N.of_nat (length lens) = le_val count /\
    2 ^ 32 <= fold_right (fun l sum => b2n l + sum) 0 lens + N.of_nat (length lens).
