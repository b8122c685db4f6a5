(** What [Debug] shows of the types that know the credentials of a connection: src/types/options.rs, src/types/mod.rs, src/pool/mod.rs
    and src/lib.rs. *)
From Coq Require Import String.
From Verif Require Import Base Bytes Text Types Packets Options.
Open Scope list_scope.

(** What is shown, before std's [DebugStruct] lays it out as text (names, braces and quoted strings): a tree. Maps are shown
    in the order of the list that stands for them. *)
Inductive shown :=
| ShText (s : bytes) | ShQuoted (s : bytes) | ShNum (n : N) | ShBits (z : Z) | ShBool (b : bool) | ShTime (nanos : N)
| ShOption (x : option shown) | ShList (l : list shown) | ShMap (l : list (bytes * shown)) | ShStruct (name : bytes) (fields : list (bytes * shown)).

(** [Url] of the crate url: every part of it, as it stands in the text. *)
Definition debug_url (u : url) : shown :=
  ShStruct (str "Url") [
    (str "scheme", ShQuoted (u_scheme u)); (str "cannot_be_a_base", ShBool (u_no_base u)); (str "username", ShQuoted (u_username u));
    (str "password", ShOption (option_map ShQuoted (u_password u))); (str "host", ShOption (option_map ShText (u_host u)));
    (str "port", ShOption (option_map ShNum (u_port u))); (str "path", ShQuoted (u_path u));
    (str "query", ShOption (option_map ShQuoted (u_query u))); (str "fragment", ShOption (option_map ShQuoted (u_fragment u)))].

(** options.rs 143 and 198: derived. *)
Definition debug_setting (s : setting_value) : shown :=
  ShStruct (str "SettingValue") [
    (str "value", match sv_value s with
                  | SString b => ShStruct (str "String") [([], ShQuoted b)]
                  | SBoolean b => ShStruct (str "Bool") [([], ShBool b)]
                  | SUInt n => ShStruct (str "UInt64") [([], ShNum n)]
                  | SFloat z => ShStruct (str "Float64") [([], ShBits z)]
                  end);
    (str "is_important", ShBool (sv_important s))].

(** options.rs 275-294: [Options]. *)
Definition debug_options (o : opts) : shown :=
  ShStruct (str "Options") [
    (str "addr", debug_url (op_addr o)); (str "database", ShQuoted (op_database o)); (str "compression", ShBool (op_compression o));
    (str "pool_min", ShNum (op_pool_min o)); (str "pool_max", ShNum (op_pool_max o)); (str "nodelay", ShBool (op_nodelay o));
    (str "keepalive", ShOption (option_map ShTime (op_keepalive o))); (str "ping_before_query", ShBool (op_ping_before_query o));
    (str "send_retries", ShNum (op_send_retries o)); (str "retry_timeout", ShTime (op_retry_timeout o));
    (str "ping_timeout", ShTime (op_ping_timeout o)); (str "connection_timeout", ShTime (op_connection_timeout o));
    (str "settings", ShMap (map (fun x => (fst x, debug_setting (snd x))) (op_settings o)));
    (str "alt_hosts", ShList (map debug_url (op_alt_hosts o)))].

(** options.rs 32-40: [OptionsSource]. *)
Definition debug_source (s : source) : shown :=
  match s with
  | Text t => ShText (str "Url(" ++ t ++ str ")")
  | Raw o => debug_options o
  end.

(** types/mod.rs 126-133: [Context]. *)
Definition debug_context (s : source) (hostname : bytes) : shown :=
  ShStruct (str "Context") [(str "options", debug_source s); (str "hostname", ShQuoted hostname)].

(** pool/mod.rs 116-128: [Pool], of its bounds and its four counters. *)
Definition debug_pool (p : pool_setup) (new idle tasks ongoing : N) : shown :=
  ShStruct (str "Pool") [
    (str "min", ShNum (ps_min p)); (str "max", ShNum (ps_max p)); (str "new connections count", ShNum new);
    (str "idle connections count", ShNum idle); (str "tasks count", ShNum tasks); (str "ongoing connections count", ShNum ongoing)].

(** types/mod.rs 90-103 and lib.rs 245-251: [ServerInfo] and [ClientHandle]; [zone] is the [Debug] of the server's time zone. *)
Definition debug_server_info (zone : bytes -> bytes) (i : server_info) : shown :=
  ShText (si_name i ++ str " " ++ print_N (si_major i) ++ str "." ++ print_N (si_minor i) ++ str "." ++ print_N (si_revision i) ++
          str "." ++ print_N (si_patch i) ++ str " (" ++ zone (si_timezone i) ++ str ")").
Definition debug_client (zone : bytes -> bytes) (i : server_info) : shown :=
  ShStruct (str "ClientHandle") [(str "server_info", debug_server_info zone i)].
