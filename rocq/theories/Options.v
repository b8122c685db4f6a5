(** Connection options and the URL they are read from: src/types/options.rs, and what src/pool/mod.rs
    and src/lib.rs do with them first. The syntax of URLs is that of the crate url, which is not part
    of the project: parsing text into the parts of a URL is a variable; what the crate does with the
    parts (query pairs, percent decoding, path segments) is modelled here from its documentation. *)
From Coq Require Import String.
From Verif Require Import Base Utf8 Text Types TypeNames Packets.
Open Scope list_scope.

(** * The crates url, form_urlencoded and percent_encoding *)

(** [char::to_digit(16)]. *)
Definition hex_digit (b : N) : option N :=
  if is_digit b then Some (b - 48)%N
  else if (97 <=? b)%N && (b <=? 102)%N then Some (b - 87)%N
  else if (65 <=? b)%N && (b <=? 70)%N then Some (b - 55)%N
  else None.

(** [percent_encoding::percent_decode]: a percent sign with two hexadecimal digits is a byte, and any
    other percent sign stands for itself. *)
Fixpoint percent_decode (s : bytes) : bytes :=
  match s with
  | 37%N :: s' =>
      match s' with
      | h :: l :: s'' =>
          match hex_digit h, hex_digit l with
          | Some x, Some y => (x * 16 + y)%N :: percent_decode s''
          | _, _ => 37%N :: percent_decode s'
          end
      | _ => 37%N :: percent_decode s'
      end
  | b :: s' => b :: percent_decode s'
  | [] => []
  end.

(** [String::from_utf8_lossy], as [core::str::lossy] implements it: the longest prefix of a character
    that is not continued becomes one U+FFFD. *)
Definition replacement : bytes := [239; 191; 189]%N.
Definition second_ok (b0 b1 : N) : bool :=
  ((b0 =? 224)%N && in_range 160 191 b1) || (in_range 225 236 b0 && cont b1) || ((b0 =? 237)%N && in_range 128 159 b1) ||
  (in_range 238 239 b0 && cont b1) ||
  ((b0 =? 240)%N && in_range 144 191 b1) || (in_range 241 243 b0 && cont b1) || ((b0 =? 244)%N && in_range 128 143 b1).
Fixpoint utf8_lossy (l : bytes) : bytes :=
  match l with
  | [] => []
  | b0 :: l1 =>
      if (b0 <? 128)%N then b0 :: utf8_lossy l1
      else match l1 with
      | [] => replacement
      | b1 :: l2 =>
          if in_range 194 223 b0 then
            if cont b1 then b0 :: b1 :: utf8_lossy l2 else replacement ++ utf8_lossy l1
          else if in_range 224 244 b0 then
            if second_ok b0 b1 then
              match l2 with
              | [] => replacement
              | b2 :: l3 =>
                  if cont b2 then
                    if (b0 <? 240)%N then b0 :: b1 :: b2 :: utf8_lossy l3
                    else match l3 with
                    | [] => replacement
                    | b3 :: l4 => if cont b3 then b0 :: b1 :: b2 :: b3 :: utf8_lossy l4
                                  else replacement ++ utf8_lossy l3
                    end
                  else replacement ++ utf8_lossy l2
              end
            else replacement ++ utf8_lossy l1
          else replacement ++ utf8_lossy l1
      end
  end.

(** [form_urlencoded]'s [decode]: plus signs are spaces. *)
Definition plus_space (b : N) : N := if (b =? 43)%N then 32%N else b.
Definition form_decode (s : bytes) : bytes := utf8_lossy (percent_decode (map plus_space s)).

(** [slice::splitn(2, …)] on one byte: what is before its first occurrence, and what is after it. *)
Fixpoint split_first (b : N) (s : bytes) : bytes * option bytes :=
  match s with
  | [] => ([], None)
  | x :: s' => if (x =? b)%N then ([], Some s') else let (h, t) := split_first b s' in (x :: h, t)
  end.
(** [form_urlencoded::parse], which is [Url::query_pairs]: pairs are between ampersands, empty ones are
    left out. *)
Definition form_pair (s : bytes) : bytes * bytes :=
  let (k, v) := split_first 61 s in (form_decode k, form_decode (match v with Some v => v | None => [] end)).
Definition form_pairs (s : bytes) : list (bytes * bytes) :=
  map form_pair (filter (fun x => match x with [] => false | _ => true end) (split_on 38 s)).

(** A parsed URL. The parts are as they stand in the text, that is, percent-encoded. A host that is
    empty counts as none. *)
Record url := mk_url {
  u_scheme : bytes; u_username : bytes; u_password : option bytes; u_host : option bytes; u_port : option N;
  u_no_base : bool; u_path : bytes; u_query : option bytes; u_fragment : option bytes }.
Definition set_path (u : url) (p : bytes) : url :=
  mk_url (u_scheme u) (u_username u) (u_password u) (u_host u) (u_port u) (u_no_base u) p (u_query u) (u_fragment u).
Definition set_query (u : url) (q : option bytes) : url :=
  mk_url (u_scheme u) (u_username u) (u_password u) (u_host u) (u_port u) (u_no_base u) (u_path u) q (u_fragment u).
(** [Url::set_port] refuses URLs without a host and those of files. *)
Definition set_port (u : url) (p : option N) : option url :=
  match u_host u with
  | None => None
  | Some _ =>
      if u_no_base u || bytes_eqb (u_scheme u) (str "file") then None
      else Some (mk_url (u_scheme u) (u_username u) (u_password u) (u_host u) p (u_no_base u) (u_path u) (u_query u) (u_fragment u))
  end.
Definition query_pairs (u : url) : list (bytes * bytes) :=
  form_pairs (match u_query u with Some q => q | None => [] end).
(** [Url::path_segments]. *)
Definition path_segments (u : url) : option (list bytes) :=
  if u_no_base u then None
  else match u_path u with
       | 47%N :: rest => Some (split_on 47 rest)
       | _ => None
       end.

(** * Options *)

(** A [Duration] is a number of nanoseconds. *)
Definition from_secs (n : N) : N := (n * 1000000000)%N.
Definition from_millis (n : N) : N := (n * 1000000)%N.

(** options.rs 211-275: [Options]. The fields for TLS are there when the feature tls is on; the
    certificate is left out. The settings are a hash map: a list without repeated names. *)
Record opts := mk_opts {
  op_addr : url;
  op_database : bytes;
  op_username : bytes;
  op_password : bytes;
  op_compression : bool;
  op_pool_min : N;
  op_pool_max : N;
  op_nodelay : bool;
  op_keepalive : option N;
  op_ping_before_query : bool;
  op_send_retries : N;
  op_retry_timeout : N;
  op_ping_timeout : N;
  op_connection_timeout : N;
  op_query_timeout : N;
  op_insert_timeout : option N;
  op_execute_timeout : option N;
  op_secure : bool;
  op_skip_verify : bool;
  op_settings : list (bytes * setting_value);
  op_alt_hosts : list url }.

(** The assignments to fields that follow, and the builder methods of [Options] (328-346 and 391-492). *)
Definition set_addr (o : opts) (x : url) : opts :=
  mk_opts x (op_database o) (op_username o) (op_password o) (op_compression o) (op_pool_min o) (op_pool_max o) (op_nodelay o) (op_keepalive o) (op_ping_before_query o) (op_send_retries o) (op_retry_timeout o) (op_ping_timeout o) (op_connection_timeout o) (op_query_timeout o) (op_insert_timeout o) (op_execute_timeout o) (op_secure o) (op_skip_verify o) (op_settings o) (op_alt_hosts o).
Definition set_database (o : opts) (x : bytes) : opts :=
  mk_opts (op_addr o) x (op_username o) (op_password o) (op_compression o) (op_pool_min o) (op_pool_max o) (op_nodelay o) (op_keepalive o) (op_ping_before_query o) (op_send_retries o) (op_retry_timeout o) (op_ping_timeout o) (op_connection_timeout o) (op_query_timeout o) (op_insert_timeout o) (op_execute_timeout o) (op_secure o) (op_skip_verify o) (op_settings o) (op_alt_hosts o).
Definition set_username (o : opts) (x : bytes) : opts :=
  mk_opts (op_addr o) (op_database o) x (op_password o) (op_compression o) (op_pool_min o) (op_pool_max o) (op_nodelay o) (op_keepalive o) (op_ping_before_query o) (op_send_retries o) (op_retry_timeout o) (op_ping_timeout o) (op_connection_timeout o) (op_query_timeout o) (op_insert_timeout o) (op_execute_timeout o) (op_secure o) (op_skip_verify o) (op_settings o) (op_alt_hosts o).
Definition set_password (o : opts) (x : bytes) : opts :=
  mk_opts (op_addr o) (op_database o) (op_username o) x (op_compression o) (op_pool_min o) (op_pool_max o) (op_nodelay o) (op_keepalive o) (op_ping_before_query o) (op_send_retries o) (op_retry_timeout o) (op_ping_timeout o) (op_connection_timeout o) (op_query_timeout o) (op_insert_timeout o) (op_execute_timeout o) (op_secure o) (op_skip_verify o) (op_settings o) (op_alt_hosts o).
Definition set_compression (o : opts) (x : bool) : opts :=
  mk_opts (op_addr o) (op_database o) (op_username o) (op_password o) x (op_pool_min o) (op_pool_max o) (op_nodelay o) (op_keepalive o) (op_ping_before_query o) (op_send_retries o) (op_retry_timeout o) (op_ping_timeout o) (op_connection_timeout o) (op_query_timeout o) (op_insert_timeout o) (op_execute_timeout o) (op_secure o) (op_skip_verify o) (op_settings o) (op_alt_hosts o).
Definition set_pool_min (o : opts) (x : N) : opts :=
  mk_opts (op_addr o) (op_database o) (op_username o) (op_password o) (op_compression o) x (op_pool_max o) (op_nodelay o) (op_keepalive o) (op_ping_before_query o) (op_send_retries o) (op_retry_timeout o) (op_ping_timeout o) (op_connection_timeout o) (op_query_timeout o) (op_insert_timeout o) (op_execute_timeout o) (op_secure o) (op_skip_verify o) (op_settings o) (op_alt_hosts o).
Definition set_pool_max (o : opts) (x : N) : opts :=
  mk_opts (op_addr o) (op_database o) (op_username o) (op_password o) (op_compression o) (op_pool_min o) x (op_nodelay o) (op_keepalive o) (op_ping_before_query o) (op_send_retries o) (op_retry_timeout o) (op_ping_timeout o) (op_connection_timeout o) (op_query_timeout o) (op_insert_timeout o) (op_execute_timeout o) (op_secure o) (op_skip_verify o) (op_settings o) (op_alt_hosts o).
Definition set_nodelay (o : opts) (x : bool) : opts :=
  mk_opts (op_addr o) (op_database o) (op_username o) (op_password o) (op_compression o) (op_pool_min o) (op_pool_max o) x (op_keepalive o) (op_ping_before_query o) (op_send_retries o) (op_retry_timeout o) (op_ping_timeout o) (op_connection_timeout o) (op_query_timeout o) (op_insert_timeout o) (op_execute_timeout o) (op_secure o) (op_skip_verify o) (op_settings o) (op_alt_hosts o).
Definition set_keepalive (o : opts) (x : option N) : opts :=
  mk_opts (op_addr o) (op_database o) (op_username o) (op_password o) (op_compression o) (op_pool_min o) (op_pool_max o) (op_nodelay o) x (op_ping_before_query o) (op_send_retries o) (op_retry_timeout o) (op_ping_timeout o) (op_connection_timeout o) (op_query_timeout o) (op_insert_timeout o) (op_execute_timeout o) (op_secure o) (op_skip_verify o) (op_settings o) (op_alt_hosts o).
Definition set_ping_before_query (o : opts) (x : bool) : opts :=
  mk_opts (op_addr o) (op_database o) (op_username o) (op_password o) (op_compression o) (op_pool_min o) (op_pool_max o) (op_nodelay o) (op_keepalive o) x (op_send_retries o) (op_retry_timeout o) (op_ping_timeout o) (op_connection_timeout o) (op_query_timeout o) (op_insert_timeout o) (op_execute_timeout o) (op_secure o) (op_skip_verify o) (op_settings o) (op_alt_hosts o).
Definition set_send_retries (o : opts) (x : N) : opts :=
  mk_opts (op_addr o) (op_database o) (op_username o) (op_password o) (op_compression o) (op_pool_min o) (op_pool_max o) (op_nodelay o) (op_keepalive o) (op_ping_before_query o) x (op_retry_timeout o) (op_ping_timeout o) (op_connection_timeout o) (op_query_timeout o) (op_insert_timeout o) (op_execute_timeout o) (op_secure o) (op_skip_verify o) (op_settings o) (op_alt_hosts o).
Definition set_retry_timeout (o : opts) (x : N) : opts :=
  mk_opts (op_addr o) (op_database o) (op_username o) (op_password o) (op_compression o) (op_pool_min o) (op_pool_max o) (op_nodelay o) (op_keepalive o) (op_ping_before_query o) (op_send_retries o) x (op_ping_timeout o) (op_connection_timeout o) (op_query_timeout o) (op_insert_timeout o) (op_execute_timeout o) (op_secure o) (op_skip_verify o) (op_settings o) (op_alt_hosts o).
Definition set_ping_timeout (o : opts) (x : N) : opts :=
  mk_opts (op_addr o) (op_database o) (op_username o) (op_password o) (op_compression o) (op_pool_min o) (op_pool_max o) (op_nodelay o) (op_keepalive o) (op_ping_before_query o) (op_send_retries o) (op_retry_timeout o) x (op_connection_timeout o) (op_query_timeout o) (op_insert_timeout o) (op_execute_timeout o) (op_secure o) (op_skip_verify o) (op_settings o) (op_alt_hosts o).
Definition set_connection_timeout (o : opts) (x : N) : opts :=
  mk_opts (op_addr o) (op_database o) (op_username o) (op_password o) (op_compression o) (op_pool_min o) (op_pool_max o) (op_nodelay o) (op_keepalive o) (op_ping_before_query o) (op_send_retries o) (op_retry_timeout o) (op_ping_timeout o) x (op_query_timeout o) (op_insert_timeout o) (op_execute_timeout o) (op_secure o) (op_skip_verify o) (op_settings o) (op_alt_hosts o).
Definition set_query_timeout (o : opts) (x : N) : opts :=
  mk_opts (op_addr o) (op_database o) (op_username o) (op_password o) (op_compression o) (op_pool_min o) (op_pool_max o) (op_nodelay o) (op_keepalive o) (op_ping_before_query o) (op_send_retries o) (op_retry_timeout o) (op_ping_timeout o) (op_connection_timeout o) x (op_insert_timeout o) (op_execute_timeout o) (op_secure o) (op_skip_verify o) (op_settings o) (op_alt_hosts o).
Definition set_insert_timeout (o : opts) (x : option N) : opts :=
  mk_opts (op_addr o) (op_database o) (op_username o) (op_password o) (op_compression o) (op_pool_min o) (op_pool_max o) (op_nodelay o) (op_keepalive o) (op_ping_before_query o) (op_send_retries o) (op_retry_timeout o) (op_ping_timeout o) (op_connection_timeout o) (op_query_timeout o) x (op_execute_timeout o) (op_secure o) (op_skip_verify o) (op_settings o) (op_alt_hosts o).
Definition set_execute_timeout (o : opts) (x : option N) : opts :=
  mk_opts (op_addr o) (op_database o) (op_username o) (op_password o) (op_compression o) (op_pool_min o) (op_pool_max o) (op_nodelay o) (op_keepalive o) (op_ping_before_query o) (op_send_retries o) (op_retry_timeout o) (op_ping_timeout o) (op_connection_timeout o) (op_query_timeout o) (op_insert_timeout o) x (op_secure o) (op_skip_verify o) (op_settings o) (op_alt_hosts o).
Definition set_secure (o : opts) (x : bool) : opts :=
  mk_opts (op_addr o) (op_database o) (op_username o) (op_password o) (op_compression o) (op_pool_min o) (op_pool_max o) (op_nodelay o) (op_keepalive o) (op_ping_before_query o) (op_send_retries o) (op_retry_timeout o) (op_ping_timeout o) (op_connection_timeout o) (op_query_timeout o) (op_insert_timeout o) (op_execute_timeout o) x (op_skip_verify o) (op_settings o) (op_alt_hosts o).
Definition set_skip_verify (o : opts) (x : bool) : opts :=
  mk_opts (op_addr o) (op_database o) (op_username o) (op_password o) (op_compression o) (op_pool_min o) (op_pool_max o) (op_nodelay o) (op_keepalive o) (op_ping_before_query o) (op_send_retries o) (op_retry_timeout o) (op_ping_timeout o) (op_connection_timeout o) (op_query_timeout o) (op_insert_timeout o) (op_execute_timeout o) (op_secure o) x (op_settings o) (op_alt_hosts o).
Definition set_settings (o : opts) (x : list (bytes * setting_value)) : opts :=
  mk_opts (op_addr o) (op_database o) (op_username o) (op_password o) (op_compression o) (op_pool_min o) (op_pool_max o) (op_nodelay o) (op_keepalive o) (op_ping_before_query o) (op_send_retries o) (op_retry_timeout o) (op_ping_timeout o) (op_connection_timeout o) (op_query_timeout o) (op_insert_timeout o) (op_execute_timeout o) (op_secure o) (op_skip_verify o) x (op_alt_hosts o).
Definition set_alt_hosts (o : opts) (x : list url) : opts :=
  mk_opts (op_addr o) (op_database o) (op_username o) (op_password o) (op_compression o) (op_pool_min o) (op_pool_max o) (op_nodelay o) (op_keepalive o) (op_ping_before_query o) (op_send_retries o) (op_retry_timeout o) (op_ping_timeout o) (op_connection_timeout o) (op_query_timeout o) (op_insert_timeout o) (op_execute_timeout o) (op_secure o) (op_skip_verify o) (op_settings o) x.

(** options.rs 296-326: [Options::default]. *)
Definition default_addr : url :=
  mk_url (str "tcp") (str "default") None (Some (str "127.0.0.1")) (Some 9000%N) false [] None None.
Definition opts_default : opts :=
  mk_opts default_addr (str "default") (str "default") [] false 10 20 true None true 3 (from_secs 5) (from_millis 500)
    (from_millis 500) (from_secs 180) (Some (from_secs 180)) (Some (from_secs 180)) false false [] [].

(** [HashMap::insert]. *)
Fixpoint map_insert {A} (k : bytes) (x : A) (l : list (bytes * A)) : list (bytes * A) :=
  match l with
  | [] => [(k, x)]
  | (k', y) :: l' => if bytes_eqb k k' then (k', x) :: l' else (k', y) :: map_insert k x l'
  end.

(** options.rs 162-196: what can be given for a setting's value; [as u64] of a negative number adds
    2^64. *)
Inductive given := GText (s : bytes) | GBool (b : bool) | GU64 (n : N) | GI32 (z : Z) | GI64 (z : Z) | GF64 (bits : Z).
Definition into_setting (g : given) : setting :=
  match g with
  | GText s => SString s
  | GBool b => SBoolean b
  | GU64 n => SUInt n
  | GI32 z | GI64 z => SUInt (Z.to_N (z mod 2 ^ 64))
  | GF64 f => SFloat f
  end.
(** options.rs 360-373: [with_setting]. *)
Definition with_setting (o : opts) (name : bytes) (g : given) (important : bool) : opts :=
  set_settings o (map_insert name (mk_setting (into_setting g) important) (op_settings o)).

(** options.rs 633-649: [parse_duration]. *)
Definition parse_duration (s : bytes) : option N :=
  let (left, right) := pdigits s in
  match parse_uint (2 ^ 64 - 1) left with
  | None => None
  | Some n =>
      if bytes_eqb right (str "s") then Some (from_secs n)
      else if bytes_eqb right (str "ms") then Some (from_millis n)
      else None
  end.
(** 651-658: [parse_opt_duration]. *)
Definition parse_opt_duration (s : bytes) : option (option N) :=
  if bytes_eqb s (str "none") then Some None
  else match parse_duration s with Some d => Some (Some d) | None => None end.
(** 660-666: [parse_compression]. *)
Definition parse_compression (s : bytes) : option bool :=
  if bytes_eqb s (str "none") then Some false else if bytes_eqb s (str "lz4") then Some true else None.
(** [bool::from_str]. *)
Definition parse_bool (s : bytes) : option bool :=
  if bytes_eqb s (str "true") then Some true else if bytes_eqb s (str "false") then Some false else None.
(** [usize::from_str]. *)
Definition parse_usize (s : bytes) : option N := parse_uint (2 ^ 64 - 1) s.

(** 584-600: [parse_param]; the value, which [query_pairs] has decoded, is decoded again. *)
Definition parse_param {A} (parse : bytes -> option A) (k v : bytes) : res A :=
  match parse (utf8_lossy (percent_decode v)) with
  | Some x => Ok x
  | None => Err (EUrlParam k v)
  end.

Section Options.
(** [Url::parse]; the feature tls. *)
Variable parse_url : bytes -> option url.
Variable tls : bool.

(** 668-677: [parse_hosts]. *)
Fixpoint each_host (l : list bytes) : option (list url) :=
  match l with
  | [] => Some []
  | h :: l' =>
      match parse_url (str "tcp://" ++ h) with
      | None => None
      | Some u => match each_host l' with Some us => Some (u :: us) | None => None end
      end
  end.
Definition parse_hosts (s : bytes) : option (list url) := each_host (split_on 44 s).

(** 536-582: [set_params]. *)
Definition set_param (o : opts) (k v : bytes) : res opts :=
  if bytes_eqb k (str "pool_min") then do x <- parse_param parse_usize k v; Ok (set_pool_min o x)
  else if bytes_eqb k (str "pool_max") then do x <- parse_param parse_usize k v; Ok (set_pool_max o x)
  else if bytes_eqb k (str "nodelay") then do x <- parse_param parse_bool k v; Ok (set_nodelay o x)
  else if bytes_eqb k (str "keepalive") then do x <- parse_param parse_opt_duration k v; Ok (set_keepalive o x)
  else if bytes_eqb k (str "ping_before_query") then do x <- parse_param parse_bool k v; Ok (set_ping_before_query o x)
  else if bytes_eqb k (str "send_retries") then do x <- parse_param parse_usize k v; Ok (set_send_retries o x)
  else if bytes_eqb k (str "retry_timeout") then do x <- parse_param parse_duration k v; Ok (set_retry_timeout o x)
  else if bytes_eqb k (str "ping_timeout") then do x <- parse_param parse_duration k v; Ok (set_ping_timeout o x)
  else if bytes_eqb k (str "connection_timeout") then do x <- parse_param parse_duration k v; Ok (set_connection_timeout o x)
  else if bytes_eqb k (str "query_timeout") then do x <- parse_param parse_duration k v; Ok (set_query_timeout o x)
  else if bytes_eqb k (str "insert_timeout") then do x <- parse_param parse_opt_duration k v; Ok (set_insert_timeout o x)
  else if bytes_eqb k (str "execute_timeout") then do x <- parse_param parse_opt_duration k v; Ok (set_execute_timeout o x)
  else if bytes_eqb k (str "compression") then do x <- parse_param parse_compression k v; Ok (set_compression o x)
  else if tls && bytes_eqb k (str "secure") then do x <- parse_param parse_bool k v; Ok (set_secure o x)
  else if tls && bytes_eqb k (str "skip_verify") then do x <- parse_param parse_bool k v; Ok (set_skip_verify o x)
  else if bytes_eqb k (str "alt_hosts") then do x <- parse_param parse_hosts k v; Ok (set_alt_hosts o x)
  else Ok (set_settings o (map_insert k (mk_setting (SString v) true) (op_settings o))).
Fixpoint set_params (o : opts) (l : list (bytes * bytes)) : res opts :=
  match l with
  | [] => Ok o
  | (k, v) :: l' => do o' <- set_param o k v; set_params o' l'
  end.

(** 602-613: user name and password, decoded. *)
Definition username_of (u : url) : option bytes :=
  match u_username u with [] => None | s => Some (utf8_lossy (percent_decode s)) end.
Definition password_of (u : url) : option bytes :=
  match u_password u with None => None | Some s => Some (utf8_lossy (percent_decode s)) end.
(** 615-631: the name of the database, as it stands in the URL. *)
Definition database_of (u : url) : res (option bytes) :=
  match path_segments u with
  | None => Ok None
  | Some [] => Ok None
  | Some (_ :: _ :: _) => Err EUrlInvalid
  | Some [[]] => Ok None
  | Some [s] => Ok (Some s)
  end.

(** 495-534: [from_url]. *)
Definition from_url (s : bytes) : res opts :=
  match parse_url s with
  | None => Err EUrlParse
  | Some u =>
      if negb (bytes_eqb (u_scheme u) (str "tcp")) then Err (EUrlScheme (u_scheme u))
      else if u_no_base u || match u_host u with None => true | Some _ => false end then Err EUrlInvalid
      else
        let o := opts_default in
        let o := match username_of u with Some x => set_username o x | None => o end in
        let o := match password_of u with Some x => set_password o x | None => o end in
        let port := match u_port u with Some p => Some p | None => Some 9000%N end in
        match set_port (set_query (set_path u []) None) port with
        | None => Err EUrlInvalid
        | Some addr =>
            let o := set_addr o addr in
            do d <- database_of u;
            let o := match d with Some x => set_database o x | None => o end in
            set_params o (query_pairs u)
        end
  end.

(** 20-64: [OptionsSource]: options, or a URL that is parsed when the options are first asked for. *)
Inductive source := Raw (o : opts) | Text (s : bytes).
Definition source_get (st : source) : res opts * source :=
  match st with
  | Raw o => (Ok o, st)
  | Text s => match from_url s with Ok o => (Ok o, Raw o) | Err e => (Err e, st) | Panic p => (Panic p, st) end
  end.

(** src/pool/mod.rs 131-177: [Pool::new]: the bounds and the addresses. crossbeam's [ArrayQueue::new]
    panics for a capacity of 0; that it may not get the memory is not modelled. *)
Record pool_setup := mk_setup { ps_min : N; ps_max : N; ps_hosts : list url; ps_source : source }.
Definition pool_of (st : source) : res pool_setup :=
  let (r, st) := source_get st in
  match r with
  | Panic p => Panic p
  | Ok o =>
      if (op_pool_max o =? 0)%N then Panic PAssert
      else Ok (mk_setup (op_pool_min o) (op_pool_max o) (op_addr o :: op_alt_hosts o) st)
  | Err _ => Ok (mk_setup 5 10 [] st)
  end.

(** src/lib.rs 260-301: what [Client::open] does for a pool's [attempt]-th attempt before it connects:
    it asks for the options and takes an address (src/pool/mod.rs 272-276; the counter does not wrap
    here). An address without a port fails ([Url::socket_addrs], called in src/connecting_stream.rs 121
    without a default port). *)
Definition open_setup (ps : pool_setup) (attempt : nat) : res (opts * url) :=
  let (r, _) := source_get (ps_source ps) in
  do o <- r;
  match ps_hosts ps with
  | [] => Panic PArith
  | h :: hs =>
      let u := nth (attempt mod List.length (h :: hs)) (h :: hs) h in
      match u_port u with None => Err EIo | Some _ => Ok (o, u) end
  end.
End Options.

(** The fields messages use: [Packets.moptions]. *)
Definition message_options (o : opts) : moptions :=
  mk_moptions (op_database o) (op_username o) (op_password o) (op_compression o) (op_settings o).

(** src/lib.rs 637-642: [with_timeout], for a future that is ready after some time, or never: tokio
    polls the future before it looks at the time. 393-396 and 448-451: the limits of [execute_] and
    [insert_]. *)
Definition with_timeout {A} (limit : N) (ready_after : option N) (result : res A) : res A :=
  match ready_after with
  | None => Err ETimeout
  | Some d => if (d <=? limit)%N then result else Err ETimeout
  end.
Definition execute_limit (o : opts) : N := match op_execute_timeout o with Some d => d | None => from_secs 0 end.
Definition insert_limit (o : opts) : N := match op_insert_timeout o with Some d => d | None => from_secs 0 end.
