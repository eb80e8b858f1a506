(** * Model of the two programs: mybinlog/src/mybinlog.rs (the commands) and mybinmsg/src/mybinmsg.rs *)
From Coq Require Import Strings.String.
From Verif Require Import Model.Base Model.BytesParser Model.Conn Model.Auth Model.Session Model.Event Model.Stream Model.Transform Model.MyBinlog.
Open Scope N_scope.

(** a connected TCP stream: its answers to the polls of the two directions *)
Definition socket : Type := (list rpoll * list wpoll)%type.
(** conn.rs:136-143 *)
Definition conn_new (s : socket) : conn := mk_conn (fst s) (snd s) [] 0 0 0.

Section Tools.
  Variables sha1 sha256 : bytes -> bytes.
  Variables fmt_f32 fmt_f64 : N -> bytes.
  Variable crc : bytes -> N.
  Variable checks : bool.
  (** External: [Regex::new], None for a pattern it rejects *)
  Variable compile : bytes -> option (bytes -> bool).

  (** mybinlog.rs:68-79, mybinmsg.rs:39-54; [None] is a TCP connection that could not be opened *)
  Definition connect (user pw : bytes) (s : option socket) : res unit * option conn :=
    match s with
    | None => (Err EIO, None)
    | Some s => let '(r, c) := handshake sha1 sha256 checks (mk_opts user pw []) (conn_new s) in (r, Some c)
    end.

  (** mybinlog.rs:26-30; the files are returned instead of their [Debug] text *)
  Definition exec_list (user pw : bytes) (s : option socket) : res (list (bytes * N)) * option conn :=
    match connect user pw s with
    | (Ok _, Some c) => let '(r, c) := conn_binlog_files checks c in (r, Some c)
    | (r, c) => (rbind r (fun _ => Err EIO), c)
    end.

  (** mybinlog.rs:42-51 *)
  Definition compile_opt (f : option bytes) : res (option (bytes -> bool)) :=
    match f with
    | None => Ok None
    | Some s => match compile s with Some re => Ok (Some re) | None => Err ECustom end
    end.
  (** mybinlog.rs:31-63: the result, the lines printed and the two connections *)
  Definition exec_dml (uuid : bytes) (random_id : N) (user pw filename : bytes) (until_now : bool)
      (database_filter table_filter : option bytes) (block : bool) (limit : N) (s1 s2 : option socket)
    : res unit * list bytes * option conn * option conn :=
    match connect user pw s1 with
    | (Ok _, Some c) =>
        match connect user pw s2 with
        | (Ok _, Some h) =>
            match compile_opt database_filter with
            | Ok df =>
                match compile_opt table_filter with
                | Ok tf =>
                    let '(r, out, c, h) := print_dmls fmt_f32 fmt_f64 crc checks (mk_do until_now df tf limit)
                      uuid random_id filename (negb block) c h in (r, out, Some c, Some h)
                | r => (rbind r (fun _ => Ok tt), [], Some c, Some h)
                end
            | r => (rbind r (fun _ => Ok tt), [], Some c, Some h)
            end
        | (r, h) => (r, [], Some c, h)
        end
    | (r, c) => (r, [], c, None)
    end.

  (** mybinmsg config.rs:3-25: how to connect; the rest of the configuration is not used *)
  Inductive connect_config := CTcp (user pw : bytes) | CUnix.
  (** mybinmsg.rs:33-35: the events written to the log until the stream ends *)
  Fixpoint watch_loop (fuel : nat) (s : binlog_stream) (c : conn) : res unit * list event * conn :=
    match fuel with
    | O => (Loop, [], c)
    | S fuel =>
        match next_event crc s c with
        | (Ok (Some e), c) => let '(r, es, c) := watch_loop fuel s c in (r, e :: es, c)
        | (Ok None, c) => (Ok tt, [], c)
        | (Err e, c) => (Err e, [], c)
        | (Panic p, c) => (Panic p, [], c)
        | (Loop, c) => (Loop, [], c)
        end
    end.
  (** mybinmsg.rs:24-37, once the configuration is read: the result, the files and the events written to the
      log.  What [log] does with them is not modelled. *)
  Definition watch (uuid : bytes) (random_id : N) (conf : connect_config) (s : option socket)
    : res unit * list (bytes * N) * list event * option conn :=
    match conf with
    | CUnix => (Panic PUnwrap, [], [], None)
    | CTcp user pw =>
        match connect user pw s with
        | (Ok _, Some c) =>
            match conn_binlog_files checks c with
            | (Ok files, c) =>
                match request_stream checks uuid random_id bo_new c with
                | (Ok st, c) =>
                    let '(r, es, c) := watch_loop (S (sched_len (c_rd c))) st c in (r, files, es, Some c)
                | (r, c) => (rbind r (fun _ => Ok tt), files, [], Some c)
                end
            | (r, c) => (rbind r (fun _ => Ok tt), [], [], Some c)
            end
        | (r, c) => (r, [], [], c)
        end
    end.
End Tools.
