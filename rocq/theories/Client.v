(** opt.go, client.go, driver.go, driver_routing_pool.go and the part of connection/connection.go
    that reads connection strings. *)
From Coq Require Import String ZArith List Bool.
From Verif Require Import Bytes GoVal GoErr Messages GoStr Url Routing Pool.
Import ListNotations.
Open Scope Z_scope.

(** ** connection/connection.go *)

(** connection.go:60-89 Connection: the configuration; [cf_timeout] in nanoseconds *)
Record config := mkConfig {
  cf_host_port : bytes;
  cf_user : bytes;
  cf_password : bytes;
  cf_timeout : Z;
  cf_chunk : Z;
  cf_tls : bool;
  cf_cert : bytes;
  cf_key : bytes;
  cf_ca : bytes;
  cf_no_verify : bool
}.
(** time.Second *)
Definition second : Z := 10 ^ 9.
(** connection.go:139-140: strings.HasPrefix(strings.ToLower(s), "t") || s == "1" *)
Definition switched_on (s : bytes) : bool := has_prefix (str "t") (to_lower s) || bytes_eqb s (str "1").
(** connection.go:110-112 *)
Definition known_scheme (s : bytes) : bool := bytes_eqb (to_lower s) (str "bolt") || bytes_eqb (to_lower s) (str "bolt+routing").
(** connection.go:106-153 newConnectionFromConnectionString *)
Definition conn_from_string (connStr : bytes) : res config :=
  match url_parse connStr with
  | None => Err (EFmt (Some (EIO 300)) (TMsg 301))
  | Some u =>
      if negb (known_scheme (u_scheme u)) then Err (EFmt None (TMsg 302))
      else
        'cred <- match u_user u with
                 | None => Ok ([], [])
                 | Some (user, Some password) => Ok (user, password)
                 | Some (_, None) => Err (ENew (TMsg 303))
                 end ;;
        let get k := query_get (str k) (parse_query (u_query u)) in
        'timeout <- (if bytes_eqb (get "timeout"%string) [] then Ok (60 * second)
                     else match atoi (get "timeout"%string) with
                          | None => Err (EFmt None (TMsg 304))
                          | Some n => Ok (int64 (n * second))
                          end) ;;
        let tls := switched_on (get "tls"%string) in
        Ok (mkConfig (u_host u) (fst cred) (snd cred) timeout 65535 tls
              (if tls then get "tls_cert_file"%string else [])
              (if tls then get "tls_key_file"%string else [])
              (if tls then get "tls_ca_cert_file"%string else [])
              (if tls then switched_on (get "tls_no_verify"%string) else false))
  end.

(** crypto/tls Config, as far as it is set at connection.go:198-234: the certificate authorities and
    the client certificate, as read from files, and whether the server is verified *)
Record tls_settings := mkTls { t_roots : option bytes; t_cert : option (bytes * bytes); t_skip : bool }.
(** What is in the files: ioutil.ReadFile, tls.LoadX509KeyPair. *)
Record files := mkFiles { read_file : bytes -> option bytes; load_pair : bytes -> bytes -> option (bytes * bytes) }.
(** connection.go:198-234 tlsConfig; the result of AppendCertsFromPEM is ignored at line 211 *)
Definition tls_config (F : files) (c : config) : res tls_settings :=
  'roots <- (if bytes_eqb (cf_ca c) [] then Ok None
             else match read_file F (cf_ca c) with Some b => Ok (Some b) | None => Err (EIO 305) end) ;;
  'cert <- (if bytes_eqb (cf_cert c) [] then Ok None
            else if bytes_eqb (cf_key c) [] then Err (ENew (TMsg 306))
            else match load_pair F (cf_cert c) (cf_key c) with Some p => Ok (Some p) | None => Err (EIO 307) end) ;;
  Ok (mkTls roots cert (cf_no_verify c)).
(** connection.go:172-196 createConnection: how the connection is made. tls.Dial is called without a
    timeout. *)
Inductive dialing := DialTLS (address : bytes) (t : tls_settings) | DialTCP (address : bytes) (timeout : Z).
Definition how_to_dial (F : files) (c : config) : res dialing :=
  if cf_tls c then 't <- tls_config F c ;; Ok (DialTLS (cf_host_port c) t)
  else Ok (DialTCP (cf_host_port c) (cf_timeout c)).

(** ** opt.go *)

(** client.go:21-43 Client; pooled, maxConnections and serverVersionBytes are never used. [cl_timeout]
    in nanoseconds *)
Record client := mkClient {
  cl_conn_str : bytes;
  cl_host : bytes;
  cl_port : Z;
  cl_routing : bool;
  cl_negotiate : bool;
  cl_user : bytes;
  cl_password : bytes;
  cl_version : Z;
  cl_timeout : Z;
  cl_chunk : Z;
  cl_tls : bool;
  cl_cert : bytes;
  cl_ca : bytes;
  cl_key : bytes;
  cl_no_verify : bool;
  cl_greater : Z;
  cl_less : Z
}.
(** new(Client) *)
Definition zero_client : client := mkClient [] [] 0 false false [] [] 0 0 0 false [] [] [] false 0 0.
(** The options of opt.go; [ONil] is a nil Opt. Simplification: an Opt is any function; those that
    the package does not provide cannot reach the unexported fields. *)
Inductive copt :=
| ONil
| OConnectionString (s : bytes)
| OHostPort (host : bytes) (port : Z)
| ORouting
| OChunkSize (n : Z)
| OBasicAuth (user password : bytes)
| OTLS (ca cert key : bytes) (no_verify : bool)
| ONegotiation
| OGreaterThan (v : Z)
| OLessThan (v : Z)
| OStrict (v : Z)
| OTimeout (t : Z).
Definition conf_err (n : Z) : gerr := EWrap (Some (ESentinel 1)) n.
(** opt.go:11-169 *)
Definition apply_opt (o : copt) (c : client) : res client :=
  let '(mkClient cs h p r ng u pw v t ck tl ce ca ke nv gt lt) := c in
  match o with
  | ONil => Err (conf_err 310)
  | OConnectionString s =>
      if negb (bytes_eqb h []) || negb (p =? 0) then Err (conf_err 311)
      else Ok (mkClient s h p r ng u pw v t ck tl ce ca ke nv gt lt)
  | OHostPort h' p' =>
      if negb (bytes_eqb cs []) then Err (conf_err 312)
      else Ok (mkClient cs h' p' r ng u pw v t ck tl ce ca ke nv gt lt)
  | ORouting =>
      if negb (bytes_eqb cs []) then Err (conf_err 313)
      else Ok (mkClient cs h p true ng u pw v t ck tl ce ca ke nv gt lt)
  | OChunkSize n => Ok (mkClient cs h p r ng u pw v t n tl ce ca ke nv gt lt)
  | OBasicAuth u' pw' => Ok (mkClient cs h p r ng u' pw' v t ck tl ce ca ke nv gt lt)
  | OTLS ca' ce' ke' nv' => Ok (mkClient cs h p r ng u pw v t ck true ce' ca' ke' nv' gt lt)
  | ONegotiation => Ok (mkClient cs h p r true u pw v t ck tl ce ca ke nv gt lt)
  | OGreaterThan w => if (w <? 1) || (3 <? w) then Err (conf_err 314) else Ok (mkClient cs h p r ng u pw v t ck tl ce ca ke nv w lt)
  | OLessThan w => if (w <? 2) || (4 <? w) then Err (conf_err 315) else Ok (mkClient cs h p r ng u pw v t ck tl ce ca ke nv gt w)
  | OStrict w => if (w <? 1) || (4 <? w) then Err (conf_err 316) else Ok (mkClient cs h p r ng u pw w t ck tl ce ca ke nv gt lt)
  | OTimeout t' => Ok (mkClient cs h p r ng u pw v t' ck tl ce ca ke nv gt lt)
  end.

(** ** client.go *)

(** client.go:52-61; the error of an option is replaced by a configuration error *)
Fixpoint apply_opts (os : list copt) (c : client) : res client :=
  match os with
  | [] => Ok c
  | o :: os' => match apply_opt o c with
                | Ok c' => apply_opts os' c'
                | Err e => Err (conf_err 317)
                | Panic => Panic
                | NoFuel => NoFuel
                end
  end.
(** client.go:102-103 and 167-168 *)
Definition tls_suffix (cert key ca no_verify : bytes) : bytes :=
  str "?tls_cert_file=" ++ cert ++ str "&tls_key_file=" ++ key ++ str "&tls_ca_cert_file=" ++ ca ++ str "&tls_no_verify=" ++ no_verify.
(** client.go:97 *)
Definition address_string (routing : bool) (user password host : bytes) (port : Z) : bytes :=
  (if routing then str "bolt+routing" else str "bolt") ++ str "://" ++ user ++ str ":" ++ password ++ str "@" ++ host ++ str ":" ++ show_int port.
(** strings.Split(s, ":") into exactly two parts *)
Definition two_parts (s : bytes) : option (bytes * bytes) :=
  match cut ":" s with
  | Some (a, b) => if has_byte ":" b then None else Some (a, b)
  | None => None
  end.
(** client.go:45-162 NewClient *)
Definition new_client (opts : list copt) : res client :=
  match opts with
  | [] => Err (conf_err 318)
  | _ =>
      'c <- apply_opts opts zero_client ;;
      let '(mkClient cs h p r ng u pw v t ck tl ce ca ke nv gt lt) := c in
      let t := if t =? 0 then 60 * second else t in
      let ck := if ck =? 0 then 65535 else ck in
      if bytes_eqb cs [] then
        if bytes_eqb h [] then Err (conf_err 319)
        else if p <=? 0 then Err (conf_err 320)
        else if bytes_eqb u [] then Err (conf_err 321)
        else
          let cs := address_string r u pw h p in
          let cs := if tl then cs ++ tls_suffix ce ke ca (show_bool nv) else cs in
          Ok (mkClient cs h p r ng u pw v t ck tl ce ca ke nv gt lt)
      else
        let r := contains (str "+routing") cs in
        match url_parse cs with
        | None => Err (EFmt (Some (EIO 300)) (TMsg 301))
        | Some x =>
            if negb (known_scheme (u_scheme x)) then Err (EFmt None (TMsg 302))
            else
              'hp <- (if has_byte ":" (u_host x) then
                        match two_parts (u_host x) with
                        | None => Err (ENew (TMsg 322))
                        | Some (h, p) => match atoi p with Some n => Ok (h, n) | None => Err (EIO 323) end
                        end
                      else Ok (h, p)) ;;
              'cred <- match u_user x with
                       | None => Ok (u, pw)
                       | Some (user, Some password) => Ok (user, password)
                       | Some (_, None) => Err (ENew (TMsg 303))
                       end ;;
              let get k := query_get (str k) (parse_query (u_query x)) in
              't <- (if bytes_eqb (get "timeout"%string) [] then Ok t
                     else match atoi (get "timeout"%string) with
                          | None => Err (EFmt None (TMsg 304))
                          | Some n => Ok (int64 (n * second))
                          end) ;;
              let tl := switched_on (get "tls"%string) in
              Ok (mkClient cs (fst hp) (snd hp) r ng (fst cred) (snd cred) v t ck tl
                    (if tl then get "tls_cert_file"%string else ce)
                    (if tl then get "tls_ca_cert_file"%string else ca)
                    (if tl then get "tls_key_file"%string else ke)
                    (if tl then switched_on (get "tls_no_verify"%string) else nv) gt lt)
        end
  end.

(** client.go:164-187 getTlsPortion; its error is always nil *)
Definition get_tls_portion (c : client) : bytes :=
  if negb (bytes_eqb (cl_cert c) []) then tls_suffix (cl_cert c) (cl_key c) (cl_ca c) (show_bool (cl_no_verify c))
  else match url_parse (cl_conn_str c) with
       | None => []
       | Some u =>
           let get k := query_get (str k) (parse_query (u_query u)) in
           if bytes_eqb (get "tls_cert_file"%string) [] then []
           else tls_suffix (get "tls_cert_file"%string) (get "tls_key_file"%string) (get "tls_ca_cert_file"%string) (get "tls_no_verify"%string)
       end.
(** client.go:189-205 getUsernamePassword; its error is always nil *)
Definition get_username_password (c : client) : bytes :=
  match url_parse (cl_conn_str c) with
  | Some (mkUrl _ (Some (user, pwd)) _ _) =>
      if bytes_eqb user [] then [] else user ++ str ":" ++ match pwd with Some p => p | None => [] end
  | _ => []
  end.

(** client.go:207-217 NewDriver, driver.go:20-22 Open: the configuration of the connections a driver
    without a pool opens *)
Definition new_driver (c : client) : res bytes :=
  if cl_routing c then Err (ENew (TMsg 324)) else Ok (cl_conn_str c).
Definition driver_open (connStr : bytes) : res config := conn_from_string connStr.
(** client.go:219-232 NewDriverPool with routing, driver_routing_pool.go:17-27: the pool, before Start *)
Definition new_routing_driver (c : client) (size : Z) : res pool :=
  new_routing_pool (cl_conn_str c) size (get_username_password c) (get_tls_portion c).
