(** * Model of mybin-core/src/flag.rs: bit sets as numbers *)
From Verif Require Import Model.Base.
Open Scope N_scope.

(** flag.rs:6-36, CapabilityFlags: u32 *)
Definition LONG_PASSWORD : N := 0x00000001.
Definition FOUND_ROWS : N := 0x00000002.
Definition LONG_FLAG : N := 0x00000004.
Definition CONNECT_WITH_DB : N := 0x00000008.
Definition NO_SCHEMA : N := 0x00000010.
Definition COMPRESS : N := 0x00000020.
Definition ODBC : N := 0x00000040.
Definition LOCAL_FILES : N := 0x00000080.
Definition IGNORE_SPACE : N := 0x00000100.
Definition PROTOCOL_41 : N := 0x00000200.
Definition INTERACTIVE : N := 0x00000400.
Definition SSL : N := 0x00000800.
Definition IGNORE_SIGPIPE : N := 0x00001000.
Definition TRANSACTIONS : N := 0x00002000.
Definition RESERVED : N := 0x00004000.
Definition SECURE_CONNECTION : N := 0x00008000.
Definition MULTI_STATEMENTS : N := 0x00010000.
Definition MULTI_RESULTS : N := 0x00020000.
Definition PS_MULTI_RESULTS : N := 0x00040000.
Definition PLUGIN_AUTH : N := 0x00080000.
Definition CONNECT_ATTRS : N := 0x00100000.
Definition PLUGIN_AUTH_LENENC_CLIENT_DATA : N := 0x00200000.
Definition CAN_HANDLE_EXPIRED_PASSWORDS : N := 0x00400000.
Definition SESSION_TRACK : N := 0x00800000.
Definition DEPRECATE_EOF : N := 0x01000000.
Definition SSL_VERITY_SERVER_CERT : N := 0x40000000.
Definition REMEMBER_OPTIONS : N := 0x80000000.

(** union of all declared capability bits *)
Definition all_capabilities : N :=
  fold_left N.lor [LONG_PASSWORD; FOUND_ROWS; LONG_FLAG; CONNECT_WITH_DB; NO_SCHEMA; COMPRESS; ODBC;
    LOCAL_FILES; IGNORE_SPACE; PROTOCOL_41; INTERACTIVE; SSL; IGNORE_SIGPIPE; TRANSACTIONS; RESERVED;
    SECURE_CONNECTION; MULTI_STATEMENTS; MULTI_RESULTS; PS_MULTI_RESULTS; PLUGIN_AUTH; CONNECT_ATTRS;
    PLUGIN_AUTH_LENENC_CLIENT_DATA; CAN_HANDLE_EXPIRED_PASSWORDS; SESSION_TRACK; DEPRECATE_EOF;
    SSL_VERITY_SERVER_CERT; REMEMBER_OPTIONS] 0.

(** flag.rs:38-69 *)
Definition default_capabilities : N :=
  fold_left N.lor [LONG_PASSWORD; FOUND_ROWS; LONG_FLAG; PROTOCOL_41; TRANSACTIONS; RESERVED;
    MULTI_RESULTS; PS_MULTI_RESULTS; PLUGIN_AUTH; CONNECT_ATTRS; PLUGIN_AUTH_LENENC_CLIENT_DATA;
    SESSION_TRACK; DEPRECATE_EOF] 0.

(** flag.rs:78-97, StatusFlags: u16; the declared bits are 0x0001 .. 0x4000 *)
Definition MORE_RESULTS_EXISTS : N := 0x0008.
Definition SESSION_STATE_CHANGED : N := 0x4000.
Definition all_status : N :=
  fold_left N.lor [0x0001; 0x0002; 0x0004; MORE_RESULTS_EXISTS; 0x0010; 0x0020; 0x0040; 0x0080;
    0x0100; 0x0200; 0x0400; 0x0800; 0x1000; 0x2000; SESSION_STATE_CHANGED] 0.

(** [bitflags]: [contains], [insert], [remove], [from_bits], [from_bits_truncate] *)
Definition contains (flags bit : N) : bool := N.land flags bit =? bit.
Definition insert (flags bit : N) : N := N.lor flags bit.
Definition remove (flags bit : N) : N := N.ldiff flags bit.
Definition from_bits (all n : N) : option N := if N.ldiff n all =? 0 then Some n else None.
Definition from_bits_truncate (all n : N) : N := N.land n all.

(** [StatusFlags::from_bits(n).ok_or_else(|| ConstraintError(..))] *)
Definition status_from_bits (n : N) : parser N :=
  match from_bits all_status n with Some f => pret f | None => pfail EConstraint end.
