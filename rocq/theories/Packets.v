(** Messages: src/binary/parser.rs (from the server) and src/types/cmd.rs (to the server). *)
From Coq Require Import String.
From Verif Require Import Base Bytes Utf8 Reader Wire Types Text TypeNames Columns Casts Block Compress.
Open Scope list_scope.
Open Scope nat_scope.

(** src/types/mod.rs 52-88: what the messages carry. A time zone is its name. *)
Record progress := mk_progress {
  pg_rows : N; pg_bytes : N; pg_total_rows : N; pg_written_rows : N; pg_written_bytes : N }.
Record profile := mk_profile {
  pf_rows : N; pf_bytes : N; pf_blocks : N; pf_applied_limit : bool; pf_rows_before_limit : N;
  pf_calculated : bool }.
Record server_info := mk_server_info {
  si_name : bytes; si_revision : N; si_minor : N; si_major : N; si_timezone : bytes;
  si_display_name : bytes; si_patch : N }.

(** src/types/mod.rs 145-155: [Packet], without the transport that some of its variants hand
    back; see Transport.v for that. *)
Inductive packet :=
| PkHello (i : server_info)
| PkPong
| PkProgress (p : progress)
| PkProfile (p : profile)
| PkTableColumns (table columns : bytes)
| PkException (e : server_error)
| PkBlock (b : block)
| PkEof.

(** src/io/transport.rs 29-33: [TransportInfo]. *)
Record tinfo := mk_tinfo { ti_timezone : option bytes; ti_revision : N; ti_compress : bool }.

(** src/binary/protocol.rs 1-8: revisions from which a field exists. *)
Definition rev_total_rows : N := 51554.
Definition rev_timezone : N := 54058.
Definition rev_quota_key : N := 54060.
Definition rev_display_name : N := 54372.
Definition rev_patch : N := 54401.
Definition rev_write_info : N := 54420.
Definition rev_settings_as_strings : N := 54429.

Definition read_bool : P bool := let! z := read_scalar SBool in Ret (negb (z =? 0)%Z).

Section Parser.
Variable lz4_decompress : bytes -> N -> option bytes.
(** The names that [chrono_tz::Tz] knows. *)
Variable tz_known : bytes -> bool.

(** parser.rs 52-61: [parse_block]. *)
Definition parse_block (i : tinfo) : P packet :=
  match ti_timezone i with
  | None => Fail EUnexpectedPacket
  | Some tz =>
      let! _ := skip_string in
      let! b := load_block lz4_decompress tz_known tz (ti_compress i) in
      Ret (PkBlock b)
  end.

(** parser.rs 63-102: [parse_server_info]; an unknown zone is an I/O error. *)
Definition parse_server_info : P packet :=
  let! name := read_string in
  let! major := read_uvarint in
  let! minor := read_uvarint in
  let! revision := read_uvarint in
  let! tz := (if (rev_timezone <=? revision)%N
              then let! s := read_string in if tz_known s then Ret s else Fail EIo
              else Ret (str "UTC")) in
  let! display := (if (rev_display_name <=? revision)%N then read_string else Ret []) in
  let! patch := (if (rev_patch <=? revision)%N then read_uvarint else Ret 0%N) in
  Ret (PkHello (mk_server_info name revision minor major tz display patch)).

(** parser.rs 104-139: [parse_progress]. *)
Definition parse_progress (revision : N) : P packet :=
  let! rows := read_uvarint in
  let! bytes := read_uvarint in
  let! total := (if (rev_total_rows <=? revision)%N then read_uvarint else Ret 0%N) in
  let! w := (if (rev_write_info <=? revision)%N
             then let! wr := read_uvarint in let! wb := read_uvarint in Ret (wr, wb)
             else Ret (0, 0)%N) in
  Ret (PkProgress (mk_progress rows bytes total (fst w) (snd w))).

(** parser.rs 141-153: [parse_profile_info]; the fields are read in the order written there. *)
Definition parse_profile_info : P packet :=
  let! rows := read_uvarint in
  let! blocks := read_uvarint in
  let! bytes := read_uvarint in
  let! applied := read_bool in
  let! before := read_uvarint in
  let! calc := read_bool in
  Ret (PkProfile (mk_profile rows bytes blocks applied before calc)).

(** parser.rs 155-163: [parse_table_columns]. *)
Definition parse_table_columns : P packet :=
  let! t := read_string in let! c := read_string in Ret (PkTableColumns t c).

(** parser.rs 165-175: [parse_exception]. *)
Definition parse_exception : P packet :=
  let! code := read_scalar U32 in
  let! name := read_string in
  let! message := read_string in
  let! stack := read_string in
  Ret (PkException (mk_server_error (Z.to_N code) name message stack)).

(** parser.rs 35-50: [parse_packet]; src/binary/protocol.rs 21-32: the numbers. *)
Definition parse_packet (i : tinfo) : P packet :=
  let! k := read_uvarint in
  if (k =? 0)%N then parse_server_info
  else if (k =? 4)%N then Ret PkPong
  else if (k =? 3)%N then parse_progress (ti_revision i)
  else if (k =? 6)%N then parse_profile_info
  else if (k =? 11)%N then parse_table_columns
  else if (k =? 2)%N then parse_exception
  else if (k =? 1)%N || (k =? 7)%N || (k =? 8)%N then parse_block i
  else if (k =? 5)%N then Ret PkEof
  else Fail (EUnknownPacket k).
End Parser.

(** src/types/options.rs 144-149 and 199-202: a setting's value. A float is its bit pattern. *)
Inductive setting := SString (s : bytes) | SBoolean (b : bool) | SUInt (n : N) | SFloat (bits : Z).
Record setting_value := mk_setting { sv_value : setting; sv_important : bool }.

(** src/types/options.rs 211-280: the fields of [Options] that messages use. The settings are a
    hash map: a list in its iteration order, without repeated names. *)
Record moptions := mk_moptions {
  o_database : bytes; o_username : bytes; o_password : bytes; o_compression : bool;
  o_settings : list (bytes * setting_value) }.

(** src/types/mod.rs 105-109: [Context]; the options are parsed from the URL when they are
    asked for, which may fail (src/types/options.rs 39-52). *)
Record context := mk_context { cx_revision : N; cx_hostname : bytes; cx_options : res moptions }.

(** src/types/query.rs 1-5. *)
Record query := mk_query { q_sql : bytes; q_id : bytes }.

(** cmd.rs 12-19. *)
Inductive cmd :=
| CmdHello (c : context)
| CmdPing
| CmdQuery (q : query) (c : context)
| CmdData (b : block) (c : context)
| CmdUnion (a b : cmd)
| CmdCancel.

(** Appending one encoded piece after the other. *)
Fixpoint seqR (l : list (res bytes)) : res bytes :=
  match l with
  | [] => Ok []
  | x :: l' => do a <- x; do b <- seqR l'; Ok (a ++ b)
  end.

(** src/client_info.rs 3-14. *)
Definition client_name : bytes := str "Rust SQLDriver".
Definition client_info : list (res bytes) :=
  [enc_string client_name; enc_uvarint 1; enc_uvarint 1; enc_uvarint 54429].

Section Cmd.
Variable lz4_compress : bytes -> bytes.
(** The [Display] of a float, which is not modelled. *)
Variable show_float : Z -> bytes.

(** src/types/options.rs 151-160, 203-207: [Display] of a setting. *)
Definition show_setting (s : setting) : bytes :=
  match s with
  | SString v => v
  | SBoolean b => str (if b then "true" else "false")
  | SUInt n => print_N n
  | SFloat f => show_float f
  end.

(** cmd.rs 134-156: [serialize_settings]. *)
Definition old_setting (x : bytes * setting_value) : list (res bytes) :=
  [enc_string (fst x);
   match sv_value (snd x) with
   | SString v => enc_string v
   | SBoolean b => enc_uvarint (if b then 1 else 0)
   | SFloat f => enc_string (show_float f)
   | SUInt n => enc_uvarint n
   end].
Definition new_setting (x : bytes * setting_value) : list (res bytes) :=
  [enc_string (fst x); Ok (enc_scalar SBool (if sv_important (snd x) then 1 else 0)%Z);
   enc_string (show_setting (sv_value (snd x)))].
Definition serialize_settings (as_strings : bool) (l : list (bytes * setting_value)) : list (res bytes) :=
  flat_map (if as_strings then new_setting else old_setting) l ++ [enc_string []].

(** cmd.rs 46-60: [encode_hello]. *)
Definition encode_hello (c : context) : res bytes :=
  do o <- cx_options c;
  seqR ([enc_uvarint 0] ++ client_info ++
        [enc_string (o_database o); enc_string (o_username o); enc_string (o_password o)]).

(** cmd.rs 62-76; src/binary/protocol.rs 13-14. *)
Definition encode_ping : res bytes := enc_uvarint 4.
Definition encode_cancel : res bytes := enc_uvarint 3.

(** cmd.rs 78-132: [encode_query]; src/binary/protocol.rs 16-19. *)
Definition encode_query (q : query) (c : context) : res bytes :=
  do o <- cx_options c;
  seqR ([enc_uvarint 1; enc_string [];
         enc_uvarint 1; enc_string []; enc_string (q_id q); enc_string (str "[::ffff:127.0.0.1]:0");
         enc_uvarint 1; enc_string (cx_hostname c); enc_string (cx_hostname c)] ++
        client_info ++
        (if (rev_quota_key <=? cx_revision c)%N then [enc_string []] else []) ++
        (if (rev_patch <=? cx_revision c)%N then [enc_uvarint 0] else []) ++
        serialize_settings (rev_settings_as_strings <=? cx_revision c)%N (o_settings o) ++
        [enc_uvarint 2; enc_uvarint (if o_compression o then 1 else 0); enc_string (q_sql q);
         send_data lz4_compress (o_compression o) block_default]).

(** cmd.rs 158-163: [encode_data]. *)
Definition encode_data (b : block) (c : context) : res bytes :=
  do o <- cx_options c; send_data lz4_compress (o_compression o) b.

(** cmd.rs 35-44 [encode_command], 165-169 [encode_union]. *)
Fixpoint encode_command (c : cmd) : res bytes :=
  match c with
  | CmdHello c => encode_hello c
  | CmdPing => encode_ping
  | CmdQuery q c => encode_query q c
  | CmdData b c => encode_data b c
  | CmdUnion a b => do x <- encode_command a; do y <- encode_command b; Ok (x ++ y)
  | CmdCancel => encode_cancel
  end.
End Cmd.
