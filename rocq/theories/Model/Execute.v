(** * COM_STMT_EXECUTE with all the fields an application can set *)
From Verif Require Import Model.Base Model.BytesParser Model.Bitmap Model.Cmd Model.Col Model.Stmt.
Open Scope N_scope.

(** cmd/stmt_execute.rs:9-22; [flags] are the bits of [CursorTypeFlags] *)
Record com_stmt_execute := mk_cse {
  cse_cmd : command; cse_stmt_id : N; cse_flags : N; cse_iter_cnt : N; cse_null_bitmap : bytes;
  cse_new_params_bound : bool; cse_params : list stmt_value }.
(** stmt_execute.rs:24-38 *)
Definition cse_single (stmt_id : N) (params : list stmt_value) : com_stmt_execute :=
  mk_cse CmdStmtExecute stmt_id 0 1 (bm_from_iter (map sv_is_null params) 0) true params.
(** stmt_execute.rs:40-64: the fields [iter_cnt] and [null_bitmap] are not used *)
Definition write_com_stmt_execute (c : com_stmt_execute) : bytes :=
  write_u8 (command_byte (cse_cmd c)) ++ write_le_u32 (cse_stmt_id c) ++ write_u8 (cse_flags c) ++ write_le_u32 1 ++
  match cse_params c with
  | [] => []
  | params =>
      bm_from_iter (map sv_is_null params) 0 ++
      write_u8 (if cse_new_params_bound c then 0x01 else 0x00) ++
      (if cse_new_params_bound c
       then flat_map (fun p => write_u8 (column_type_code (sv_type p)) ++ write_u8 (if sv_unsigned p then 0x80 else 0x00)) params
       else []) ++
      flat_map (fun p => write_binary_value (sv_val p)) params
  end.
