(** What connection URLs mean, independently of how the code reads them. *)
From Coq Require Import String.
From Verif Require Import Base Text Types Packets Options SpecNum SpecWire.
Open Scope list_scope.

(** * Values of parameters *)

(** Decimal digits and the number they denote. *)
Definition numeral (s : bytes) (n : N) : Prop :=
  exists ds, s = map (fun d => (48 + d)%N) ds /\ ds <> [] /\ digits_ok ds /\ dec_value ds = Z.of_N n /\ (n < 2 ^ 64)%N.
(** A number, with or without a plus sign. *)
Definition says_number (s : bytes) (n : N) : Prop := numeral s n \/ exists t, s = 43%N :: t /\ numeral t n.
(** So many seconds, or so many milliseconds; in nanoseconds. *)
Definition says_time (s : bytes) (t : N) : Prop :=
  exists d n, numeral d n /\ (s = d ++ str "s" /\ t = (n * 10 ^ 9)%N \/ s = d ++ str "ms" /\ t = (n * 10 ^ 6)%N).
Definition says_time_or_none (s : bytes) (t : option N) : Prop :=
  match t with None => s = str "none" | Some t => says_time s t end.
Definition says_flag (s : bytes) (b : bool) : Prop := s = str (if b then "true" else "false").
Definition says_codec (s : bytes) (b : bool) : Prop := s = str (if b then "lz4" else "none").
(** Addresses between commas. *)
Definition says_hosts (parse_url : bytes -> option url) (s : bytes) (l : list url) : Prop :=
  exists hs, hs <> [] /\ s = concat_sep [44%N] hs /\ Forall (fun h => ~ In 44%N h) hs /\
    Forall2 (fun h u => parse_url (str "tcp://" ++ h) = Some u) hs l.

(** * Parameters *)

Inductive pvalue := PNumber (n : N) | PTime (t : N) | PMaybe (t : option N) | PFlag (b : bool) | PHosts (l : list url).

Definition number_read (s : bytes) (x : pvalue) : Prop := match x with PNumber n => says_number s n | _ => False end.
Definition time_read (s : bytes) (x : pvalue) : Prop := match x with PTime t => says_time s t | _ => False end.
Definition maybe_read (s : bytes) (x : pvalue) : Prop := match x with PMaybe t => says_time_or_none s t | _ => False end.
Definition flag_read (s : bytes) (x : pvalue) : Prop := match x with PFlag b => says_flag s b | _ => False end.
Definition codec_read (s : bytes) (x : pvalue) : Prop := match x with PFlag b => says_codec s b | _ => False end.
Definition hosts_read parse_url (s : bytes) (x : pvalue) : Prop := match x with PHosts l => says_hosts parse_url s l | _ => False end.

(** The parameters there are: their names, the options they are for, and the texts they are given by. *)
Definition parameters (parse_url : bytes -> option url) (tls : bool) : list (bytes * (opts -> pvalue) * (bytes -> pvalue -> Prop)) :=
  [(str "pool_min", fun o => PNumber (op_pool_min o), number_read);
   (str "pool_max", fun o => PNumber (op_pool_max o), number_read);
   (str "nodelay", fun o => PFlag (op_nodelay o), flag_read);
   (str "keepalive", fun o => PMaybe (op_keepalive o), maybe_read);
   (str "ping_before_query", fun o => PFlag (op_ping_before_query o), flag_read);
   (str "send_retries", fun o => PNumber (op_send_retries o), number_read);
   (str "retry_timeout", fun o => PTime (op_retry_timeout o), time_read);
   (str "ping_timeout", fun o => PTime (op_ping_timeout o), time_read);
   (str "connection_timeout", fun o => PTime (op_connection_timeout o), time_read);
   (str "query_timeout", fun o => PTime (op_query_timeout o), time_read);
   (str "insert_timeout", fun o => PMaybe (op_insert_timeout o), maybe_read);
   (str "execute_timeout", fun o => PMaybe (op_execute_timeout o), maybe_read);
   (str "compression", fun o => PFlag (op_compression o), codec_read);
   (str "alt_hosts", fun o => PHosts (op_alt_hosts o), hosts_read parse_url)] ++
  if tls then [(str "secure", fun o => PFlag (op_secure o), flag_read);
               (str "skip_verify", fun o => PFlag (op_skip_verify o), flag_read)]
  else [].
Definition is_parameter parse_url tls (k : bytes) : Prop := In k (map (fun p => fst (fst p)) (parameters parse_url tls)).

(** The value a list of pairs gives a name: the last one. *)
Definition given_last (k : bytes) (l : list (bytes * bytes)) : option bytes :=
  fold_left (fun r p => if bytes_eq_dec k (fst p) then Some (snd p) else r) l None.

(** The value of a setting. *)
Definition setting_named (k : bytes) (o : opts) : option setting_value :=
  match find (fun p => if bytes_eq_dec k (fst p) then true else false) (op_settings o) with
  | Some p => Some (snd p)
  | None => None
  end.

(** A parameter whose value says nothing. *)
Definition bad_parameter parse_url tls (p : bytes * bytes) : Prop :=
  exists f reads, In (fst p, f, reads) (parameters parse_url tls) /\ forall x, ~ reads (snd p) x.

(** What pairs do to options. *)
Record params_done parse_url tls (o : opts) (l : list (bytes * bytes)) (o' : opts) : Prop := {
  pd_params : forall k f reads, In (k, f, reads) (parameters parse_url tls) ->
    match given_last k l with Some v => reads v (f o') | None => f o' = f o end;
  pd_settings : forall k, ~ is_parameter parse_url tls k ->
    setting_named k o' = match given_last k l with Some v => Some (mk_setting (SString v) true) | None => setting_named k o end;
  pd_no_params : forall k, is_parameter parse_url tls k -> setting_named k o' = setting_named k o;
  pd_once : NoDup (map fst (op_settings o)) -> NoDup (map fst (op_settings o'));
  pd_addr : op_addr o' = op_addr o;
  pd_database : op_database o' = op_database o;
  pd_username : op_username o' = op_username o;
  pd_password : op_password o' = op_password o }.

(** * Percent encoding *)

(** A hexadecimal digit, of either case. *)
Definition hex (d : N) (b : N) : Prop :=
  (d < 10)%N /\ b = (48 + d)%N \/ (10 <= d < 16)%N /\ (b = (87 + d)%N \/ b = (55 + d)%N).
(** [e] is a percent-encoded form of [s] in which the bytes that [raw] allows may stand for themselves. *)
Inductive percent (raw : N -> Prop) : bytes -> bytes -> Prop :=
| percent_nil : percent raw [] []
| percent_raw b e s : raw b -> b <> 37%N -> percent raw e s -> percent raw (b :: e) (b :: s)
| percent_hex h l x y e s : hex x h -> hex y l -> percent raw e s -> percent raw (37%N :: h :: l :: e) ((x * 16 + y)%N :: s).
(** In the query of a URL a plus sign is a space. *)
Inductive form (raw : N -> Prop) : bytes -> bytes -> Prop :=
| form_nil : form raw [] []
| form_raw b e s : raw b -> b <> 37%N -> b <> 43%N -> b <> 38%N -> form raw e s -> form raw (b :: e) (b :: s)
| form_plus e s : form raw e s -> form raw (43%N :: e) (32%N :: s)
| form_hex h l x y e s : hex x h -> hex y l -> form raw e s -> form raw (37%N :: h :: l :: e) ((x * 16 + y)%N :: s).
(** A query: pairs between ampersands, each a name, an equals sign and a value. *)
Definition pair_text (e : bytes) (p : bytes * bytes) : Prop :=
  exists k v, e = k ++ 61%N :: v /\ form (fun b => b <> 61%N) k (fst p) /\ form (fun _ => True) v (snd p).
Definition query_text (q : bytes) (l : list (bytes * bytes)) : Prop :=
  exists es, Forall2 pair_text es l /\ q = concat_sep [38%N] es.

(** * URLs *)

(** A URL [u] names this database: its path is a slash, and the encoded name after it. *)
Definition names_database (u : url) (d : bytes) : Prop :=
  exists e, u_path u = 47%N :: e /\ ~ In 47%N e /\ percent (fun b => b <> 37%N) e d.
Definition no_database (u : url) : Prop := u_path u = [] \/ u_path u = [47%N].

(** The options a URL stands for before its parameters: the address is the URL's, with port 9000 if
    it has none; user, password and database are given, or default; everything else has the
    documented defaults. *)
Definition url_options (u : url) (user password database : bytes) : opts := {|
  op_addr := {| u_scheme := u_scheme u; u_username := u_username u; u_password := u_password u; u_host := u_host u;
                u_port := Some (match u_port u with Some p => p | None => 9000%N end);
                u_no_base := false; u_path := []; u_query := None; u_fragment := u_fragment u |};
  op_database := database; op_username := user; op_password := password; op_compression := false;
  op_pool_min := 10; op_pool_max := 20; op_nodelay := true; op_keepalive := None; op_ping_before_query := true;
  op_send_retries := 3; op_retry_timeout := 5 * 10 ^ 9; op_ping_timeout := 500 * 10 ^ 6; op_connection_timeout := 500 * 10 ^ 6;
  op_query_timeout := 180 * 10 ^ 9; op_insert_timeout := Some (180 * 10 ^ 9)%N; op_execute_timeout := Some (180 * 10 ^ 9)%N;
  op_secure := false; op_skip_verify := false; op_settings := []; op_alt_hosts := [] |}.

(** A URL of the right shape: user, password and query are encoded forms of text. *)
Record good_url (u : url) (user password database : bytes) (l : list (bytes * bytes)) : Prop := {
  gu_scheme : u_scheme u = str "tcp";
  gu_base : u_no_base u = false;
  gu_host : u_host u <> None;
  gu_user : u_username u = [] /\ user = str "default" \/
            u_username u <> [] /\ is_utf8 user /\ percent (fun b => b <> 37%N) (u_username u) user;
  gu_password : match u_password u with
                | None => password = []
                | Some e => is_utf8 password /\ percent (fun b => b <> 37%N) e password
                end;
  gu_database : no_database u /\ database = str "default" \/ names_database u database /\ u_path u <> [47%N];
  gu_query : match u_query u with None => l = [] | Some q => query_text q l end;
  gu_utf8 : Forall (fun p => is_utf8 (fst p) /\ is_utf8 (snd p)) l }.

(** * Settings given in code *)

(** A value given in Rust, as the server is to read it. *)
Definition given_sent (show_float : Z -> bytes) (g : given) (t : bytes) : Prop :=
  match g with
  | GText s => t = s
  | GBool b => t = str (if b then "true" else "false")
  | GU64 n => exists ds, t = map (fun d => (48 + d)%N) ds /\ digits_ok ds /\ dec_value ds = Z.of_N n /\ ds <> []
  | GI32 z | GI64 z => exists sign ds, t = sign ++ map (fun d => (48 + d)%N) ds /\ digits_ok ds /\ ds <> [] /\
      (sign = [] /\ z = dec_value ds \/ sign = [45%N] /\ z = (- dec_value ds)%Z)
  | GF64 f => t = show_float f
  end.
