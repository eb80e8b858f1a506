(** * Model of mybin-async/src/auth_plugin.rs and of the login in mybin-async/src/conn.rs *)
From Coq Require Import Strings.String.
From Verif Require Import Model.Base Model.BytesParser Model.Flags Model.Packet Model.Conn.
Open Scope N_scope.

(** a Rust string literal *)
Definition str (s : string) : bytes := list_byte_of_string s.

(** [iter().zip(..).map(|(b1, b2)| b1 ^ b2).collect()], auth_plugin.rs:80-84 / 186-190 *)
Fixpoint xor_zip (a b : bytes) : bytes :=
  match a, b with
  | x :: a, y :: b => n2b (N.lxor (b2n x) (b2n y)) :: xor_zip a b
  | _, _ => []
  end.

Section Auth.
  (** External: the digests of the [crypto] crate *)
  Variable sha1 sha256 : bytes -> bytes.

  (** auth_plugin.rs:56-86 *)
  Definition scramble411 (password seed : bytes) : bytes :=
    let stage1 := sha1 password in
    let stage2 := sha1 stage1 in
    let seed_hash := sha1 (seed ++ stage2) in
    xor_zip seed_hash stage1.

  (** auth_plugin.rs:166-192 *)
  Definition scramble_caching_sha2 (password seed : bytes) : bytes :=
    let dig1 := sha256 password in
    let dig2 := sha256 dig1 in
    let scramble1 := sha256 (dig2 ++ seed) in
    xor_zip dig1 scramble1.

  (** auth_plugin.rs:194-200 *)
  Inductive sha2_stage := FastAuthSendScramble | FastAuthReadResult | FastAuthComplete | FullAuth.

  (** [Box<dyn AuthPlugin>]: auth_plugin.rs:26-28 and 89-96 *)
  Inductive auth_plugin :=
  | Native (password : bytes)
  | Sha2 (password seed : bytes) (stage : sha2_stage) (ssl : bool).

  (** auth_plugin.rs:31-33 and 98-108; conn.rs:586-598 *)
  Definition new_auth_plugin (name : bytes) : res auth_plugin :=
    if beqb name (str "mysql_native_password") then Ok (Native [])
    else if beqb name (str "caching_sha2_password") then Ok (Sha2 [] [] FastAuthSendScramble false)
    else Err ECustom.

  (** auth_plugin.rs:41-43 and 115-117 *)
  Definition set_credential (p : auth_plugin) (password : bytes) : auth_plugin :=
    match p with
    | Native _ => Native password
    | Sha2 _ seed stage ssl => Sha2 password seed stage ssl
    end.

  (** auth_plugin.rs:150-160, after the match *)
  Definition full_auth (password seed : bytes) (stage : sha2_stage) (ssl : bool) : res bytes * auth_plugin :=
    (if ssl then Ok (password ++ [x00]) else Err ECustom, Sha2 password seed stage ssl).

  (** auth_plugin.rs:45-53 and 119-160: the bytes appended to [output], and the new state *)
  Definition auth_next (p : auth_plugin) (input : bytes) : res bytes * auth_plugin :=
    match p with
    | Native password =>
        match password with
        | [] => (Ok [], p)
        | _ => (Ok (scramble411 password input), p)
        end
    | Sha2 password seed stage ssl =>
        match password with
        | [] => (Ok [], p)
        | _ =>
          match stage with
          | FastAuthSendScramble =>
              (Ok (scramble_caching_sha2 password seed), Sha2 password seed FastAuthReadResult ssl)
          | FastAuthReadResult =>
              match input with
              | [] => (Err ECustom, p)
              | b :: _ =>
                  if b2n b =? 3 then (Ok [], Sha2 password seed FastAuthComplete ssl)
                  else if b2n b =? 4 then full_auth password seed FullAuth ssl
                  else (Err ECustom, p)
              end
          | _ => full_auth password seed stage ssl
          end
        end
    end.

  (** conn.rs:610-614: one trailing 0x00 is removed *)
  Definition trim_seed (seed : bytes) : bytes :=
    match rev seed with
    | x00 :: r => rev r
    | _ => seed
    end.

  (** conn.rs:600-620 *)
  Definition gen_init_auth_resp (p : auth_plugin) (password seed : bytes) : res bytes * auth_plugin :=
    auth_next (set_credential p password) (trim_seed seed).

  (** conn.rs:622-627 *)
  Record conn_opts := mk_opts { o_username : bytes; o_password : bytes; o_database : bytes }.

  (** conn.rs:179-196: capability flags before the database is considered *)
  Definition login_caps (cap : N) : N :=
    remove (fold_left insert [PLUGIN_AUTH; LONG_PASSWORD; PROTOCOL_41; TRANSACTIONS; MULTI_RESULTS;
      SECURE_CONNECTION; DEPRECATE_EOF; PLUGIN_AUTH_LENENC_CLIENT_DATA] cap) SSL.

  (** conn.rs:215-247, the loop; every iteration reads a message, so [fuel] is
      bounded by what the stream delivers *)
  Fixpoint handshake_loop (checks : bool) (cap : N) (fuel : nat) (p : auth_plugin) : io unit :=
    match fuel with
    | O => ilift Loop
    | S fuel =>
      msg <~ recv_msg ;;
      m <~ ilift (fst (read_handshake_message cap msg)) ;;
      match m with
      | HmOk ok =>
          _ <~ (fun c => (Ok tt, set_status c (ok_status ok))) ;;
          reset_pkt_nr
      | HmErr _ => ierr EPacket
      | HmSwitch _ => ipanic PUnimplemented
      | HmMore more =>
          let '(r, p) := auth_next p (am_data more) in
          resp <~ ilift r ;;
          _ <~ (match resp with [] => iret tt | _ => send_msg checks resp false end) ;;
          handshake_loop checks cap fuel p
      end
    end.

  (** conn.rs:158-249; max packet and charset from handshake.rs:146-160 *)
  Definition handshake (checks : bool) (opts : conn_opts) : io unit :=
    msg <~ recv_msg ;;
    hs <~ ilift (fst (read_initial_handshake msg)) ;;
    let seed := hs_auth_data_1 hs ++ hs_auth_data_2 hs in
    _ <~ (fun c => (Ok tt, set_cap c (login_caps (c_cap c)))) ;;
    p <~ ilift (new_auth_plugin (hs_plugin hs)) ;;
    let '(r, p) := gen_init_auth_resp p (o_password opts) seed in
    auth_response <~ ilift r ;;
    _ <~ (match o_database opts with
          | [] => iret tt
          | _ => fun c => (Ok tt, set_cap c (insert (c_cap c) CONNECT_WITH_DB))
          end) ;;
    fun c =>
      let cap := c_cap c in
      let resp := mk_hr cap 0xffffff 33 (o_username opts) auth_response (o_database opts) (hs_plugin hs) [] in
      (_ <~ send_msg checks (write_handshake_response resp) false ;;
       fun c => handshake_loop checks cap (S (sched_len (c_rd c))) p c) c.
End Auth.
