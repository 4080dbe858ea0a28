(** The text of the error with which a connection string is refused (connection/connection.go:106-137). *)
From Coq Require Import String ZArith List Bool.
From Verif Require Import Bytes GoVal GoErr Messages Url Client Texts.
Import ListNotations.
Open Scope Z_scope.

(** What the model leaves open of the Go library: [l_why]: the last part of the text of an error of
    url.Parse; [l_quote]: %q of text with other characters than printable ASCII; [l_stack]: debug.Stack(),
    which lists functions and lines and the arguments as numbers (errors.go:21). *)
Record library := mkLibrary { l_why : bytes -> bytes; l_quote : bytes -> bytes; l_stack : bytes }.
(** strconv.Quote, fmt %q *)
Definition printable (b : byte) : bool := (32 <=? bz b) && (bz b <=? 126).
Definition quote_byte (b : byte) : bytes := if Byte.eqb b """" || Byte.eqb b "\" then ["\"%byte; b] else [b].
Definition quote (L : library) (s : bytes) : bytes :=
  if forallb printable s then str """" ++ flat_map quote_byte s ++ str """" else l_quote L s.
(** net/url Error.Error (Go 1.14): the operation, the quoted URL, the reason. Parse names the URL without the
    part after # unless that part is what cannot be read. *)
Definition url_error (L : library) (s : bytes) : bytes :=
  let named := match parse_no_fragment (fst (split_at "#" s)) with None => fst (split_at "#" s) | Some _ => s end in
  str "parse " ++ quote L named ++ str ": " ++ l_why L s.
(** connection.go:106-137: the text of the error returned, None: the string is accepted *)
Definition refusal (L : library) (connStr : bytes) : option bytes :=
  match url_parse connStr with
  | None => Some (str "an error occurred parsing bolt URL, " ++ url_error L connStr)
  | Some u =>
      if negb (known_scheme (u_scheme u)) then
        Some (str "unsupported connection string scheme: " ++ u_scheme u ++ str ". Driver only supports 'bolt' and 'bolt+routing' scheme")
      else match u_user u with
           | Some (_, None) => Some (str "must specify password when passing user" ++ [x0a; x0a] ++ str " Stack Trace:" ++ [x0a; x0a] ++ l_stack L)
           | _ =>
               let timeout := query_get (str "timeout") (parse_query (u_query u)) in
               if bytes_eqb timeout [] then None
               else match atoi timeout with
                    | None => Some (str "Invalid format for timeout: " ++ timeout ++ str ".  Must be integer")
                    | Some _ => None
                    end
           end
  end.
