(** The parts of the Go library (1.14, see /repo/go.mod) that read connection strings: net/url Parse
    and URL.Query, used at /repo/connection/connection.go:107 and 130-147 and /repo/client.go:110-155
    and 169-197, and strconv.Atoi, used at connection.go:132 and client.go:140. *)
From Coq Require Import String ZArith List Bool.
From Verif Require Import Bytes GoVal GoErr Messages GoStr.
Import ListNotations.
Open Scope Z_scope.

(** strings.Index(s, c) for a byte: what is before and after its first occurrence *)
Fixpoint cut (c : byte) (s : bytes) : option (bytes * bytes) :=
  match s with
  | [] => None
  | x :: s' => if Byte.eqb x c then Some ([], s')
               else match cut c s' with Some (a, b) => Some (x :: a, b) | None => None end
  end.
(** strings.LastIndex(s, c) *)
Fixpoint cut_last (c : byte) (s : bytes) : option (bytes * bytes) :=
  match s with
  | [] => None
  | x :: s' => match cut_last c s' with
               | Some (a, b) => Some (x :: a, b)
               | None => if Byte.eqb x c then Some ([], s') else None
               end
  end.
(** strings.Contains(s, c) for a byte *)
Definition has_byte (c : byte) (s : bytes) : bool := existsb (Byte.eqb c) s.
(** net/url split(s, c, true) *)
Definition split_at (c : byte) (s : bytes) : bytes * bytes := match cut c s with Some p => p | None => (s, []) end.

Definition is_upper (b : byte) : bool := (65 <=? bz b) && (bz b <=? 90).
Definition is_lower (b : byte) : bool := (97 <=? bz b) && (bz b <=? 122).
Definition is_digit (b : byte) : bool := (48 <=? bz b) && (bz b <=? 57).
Definition alnum (b : byte) : bool := is_upper b || is_lower b || is_digit b.
Definition one_of (l : bytes) (b : byte) : bool := existsb (Byte.eqb b) l.

(** url.go ishex, unhex *)
Definition ishex (b : byte) : bool :=
  is_digit b || (97 <=? bz b) && (bz b <=? 102) || (65 <=? bz b) && (bz b <=? 70).
Definition unhex (b : byte) : Z :=
  if is_digit b then bz b - 48 else if (97 <=? bz b) && (bz b <=? 102) then bz b - 97 + 10 else bz b - 65 + 10.

(** url.go: the kinds of text *)
Inductive mode := MPath | MHost | MZone | MUser | MQuery | MFragment.
(** url.go shouldEscape, for the host and zone (elsewhere it is not used when reading) *)
Definition should_escape_host (b : byte) : bool :=
  negb (alnum b || one_of (str "!$&'()*+,;=:[]<>""") b || one_of (str "-_.~") b).
(** url.go unescape; None: an error. The library first checks the whole text and then decodes it. *)
Definition escape_allowed (m : mode) (a b : byte) : bool :=
  match m with
  | MHost => negb (unhex a <? 8) || (Byte.eqb a "2" && Byte.eqb b "5")
  | MZone => (Byte.eqb a "2" && Byte.eqb b "5") || (unhex a * 16 + unhex b =? 32) || negb (should_escape_host (zb (unhex a * 16 + unhex b)))
  | _ => true
  end.
Definition byte_allowed (m : mode) (b : byte) : bool :=
  match m with
  | MHost | MZone => negb ((bz b <? 128) && should_escape_host b)
  | _ => true
  end.
Fixpoint unescape (m : mode) (s : bytes) : option bytes :=
  match s with
  | [] => Some []
  | c :: s' =>
      if Byte.eqb c "%" then
        match s' with
        | a :: b :: s'' =>
            if ishex a && ishex b && escape_allowed m a b
            then match unescape m s'' with Some r => Some (zb (unhex a * 16 + unhex b) :: r) | None => None end
            else None
        | _ => None
        end
      else if byte_allowed m c
        then match unescape m s' with
             | Some r => Some ((if Byte.eqb c "+" then match m with MQuery => " "%byte | _ => c end else c) :: r)
             | None => None
             end
        else None
  end.

(** url.URL: the scheme, the user (name and, if given, password), the host and the raw query. Path,
    opaque part and fragment are checked but not kept. *)
Record url := mkUrl { u_scheme : bytes; u_user : option (bytes * option bytes); u_host : bytes; u_query : bytes }.

(** url.go getscheme: the scheme and the rest; [first]: at the start *)
Fixpoint get_scheme (first : bool) (s : bytes) : option (option (bytes * bytes)) :=
  match s with
  | [] => Some None
  | c :: s' =>
      let more := match get_scheme false s' with
                  | Some (Some (a, b)) => Some (Some (c :: a, b))
                  | x => x
                  end in
      if is_upper c || is_lower c then more
      else if is_digit c || one_of (str "+-.") c then if first then Some None else more
      else if Byte.eqb c ":" then if first then None else Some (Some ([], s'))
      else Some None
  end.

(** url.go validOptionalPort *)
Definition valid_optional_port (s : bytes) : bool :=
  match s with [] => true | c :: s' => Byte.eqb c ":" && forallb is_digit s' end.
(** strings.Index(s, "%25"): what is before and from there *)
Fixpoint zone_start (s : bytes) : option (bytes * bytes) :=
  match s with
  | [] => None
  | c :: s' => if has_prefix (str "%25") s then Some ([], s)
               else match zone_start s' with Some (a, b) => Some (c :: a, b) | None => None end
  end.
Definition opt_app (a b : option bytes) : option bytes :=
  match a, b with Some a, Some b => Some (a ++ b) | _, _ => None end.
(** url.go parseHost *)
Definition parse_host (host : bytes) : option bytes :=
  match host with
  | "["%byte :: _ =>
      match cut_last "]" host with
      | None => None
      | Some (before, colonPort) =>
          if valid_optional_port colonPort then
            match zone_start before with
            | Some (h1, h2) => opt_app (unescape MHost h1) (opt_app (unescape MZone h2) (unescape MHost ("]"%byte :: colonPort)))
            | None => unescape MHost host
            end
          else None
      end
  | _ =>
      match cut_last ":" host with
      | Some (_, port) => if valid_optional_port (":"%byte :: port) then unescape MHost host else None
      | None => unescape MHost host
      end
  end.
(** url.go validUserinfo. It goes through the runes of the text; those outside ASCII are not valid,
    and neither are bytes that form no rune. *)
Definition userinfo_byte (b : byte) : bool := alnum b || one_of (str "-._:~!$&'()*+,;=%@") b.
Definition valid_userinfo (s : bytes) : bool := forallb userinfo_byte s.
(** url.go parseAuthority *)
Definition parse_authority (authority : bytes) : option (option (bytes * option bytes) * bytes) :=
  match cut_last "@" authority with
  | None => match parse_host authority with Some h => Some (None, h) | None => None end
  | Some (userinfo, host) =>
      match parse_host host with
      | None => None
      | Some h =>
          if valid_userinfo userinfo then
            match cut ":" userinfo with
            | None => match unescape MUser userinfo with Some u => Some (Some (u, None), h) | None => None end
            | Some (username, password) =>
                match unescape MUser username, unescape MUser password with
                | Some u, Some p => Some (Some (u, Some p), h)
                | _, _ => None
                end
            end
          else None
      end
  end.

(** url.go stringContainsCTLByte *)
Definition has_ctl (s : bytes) : bool := existsb (fun b => (bz b <? 32) || (bz b =? 127)) s.
(** strings.Index(s, "/"): what is before and from there *)
Definition split_slash (s : bytes) : bytes * bytes := match cut "/" s with Some (a, b) => (a, "/"%byte :: b) | None => (s, []) end.
(** url.go parse, with viaRequest false; setPath only matters for its error *)
Definition parse_rest (scheme rest : bytes) : option url :=
  let '(rest, query) := split_at "?" rest in
  let slash := has_prefix (str "/") rest in
  if negb slash && negb (bytes_eqb scheme []) then Some (mkUrl scheme None [] query)
  else
    (* without a scheme, the first path segment may not contain a colon *)
    if negb slash && has_byte ":" (fst (split_slash rest)) then None
    else if (negb (bytes_eqb scheme []) || negb (has_prefix (str "///") rest)) && has_prefix (str "//") rest then
      let '(authority, path) := split_slash (skipn 2 rest) in
      match parse_authority authority with
      | None => None
      | Some (user, host) => match unescape MPath path with Some _ => Some (mkUrl scheme user host query) | None => None end
      end
    else match unescape MPath rest with Some _ => Some (mkUrl scheme None [] query) | None => None end.
Definition parse_no_fragment (s : bytes) : option url :=
  if has_ctl s then None
  else if bytes_eqb s (str "*") then Some (mkUrl [] None [] [])
  else match get_scheme true s with
       | None => None
       | Some None => parse_rest [] s
       | Some (Some (scheme, rest)) => parse_rest (to_lower scheme) rest
       end.
(** url.go Parse; None: an error *)
Definition url_parse (s : bytes) : option url :=
  let '(u, frag) := split_at "#" s in
  match parse_no_fragment u with
  | None => None
  | Some r => match unescape MFragment frag with Some _ => Some r | None => None end
  end.

(** url.go parseQuery: the pairs, in order; pairs that cannot be decoded are left out *)
Definition query_pair (s : bytes) : list (bytes * bytes) :=
  match s with
  | [] => []
  | _ =>
      let '(k, v) := split_at "=" s in
      match unescape MQuery k, unescape MQuery v with
      | Some k, Some v => [(k, v)]
      | _, _ => []
      end
  end.
(** the text cut at & and ; *)
Fixpoint query_parts (s : bytes) : list bytes :=
  match s with
  | [] => [[]]
  | c :: s' =>
      if Byte.eqb c "&" || Byte.eqb c ";" then [] :: query_parts s'
      else match query_parts s' with
           | p :: ps => (c :: p) :: ps
           | [] => [[c]]
           end
  end.
Definition parse_query (s : bytes) : list (bytes * bytes) := flat_map query_pair (query_parts s).
(** url.go Values.Get: the first value, "" if there is none *)
Fixpoint query_get (k : bytes) (q : list (bytes * bytes)) : bytes :=
  match q with
  | [] => []
  | (k', v) :: q' => if bytes_eqb k k' then v else query_get k q'
  end.

(** strconv.Atoi, strconv.ParseInt(s, 10, 64); None: an error *)
Fixpoint digits (acc : Z) (s : bytes) : option Z :=
  match s with
  | [] => Some acc
  | c :: s' => if is_digit c then digits (acc * 10 + (bz c - 48)) s' else None
  end.
Definition atoi (s : bytes) : option Z :=
  let '(neg, ds) := match s with
                    | "-"%byte :: s' => (true, s')
                    | "+"%byte :: s' => (false, s')
                    | _ => (false, s)
                    end in
  match ds with
  | [] => None
  | _ => match digits 0 ds with
         | None => None
         | Some n => let z := if neg then - n else n in
                     if (- 2 ^ 63 <=? z) && (z <? 2 ^ 63) then Some z else None
         end
  end.

(** fmt %v of an int: decimal. A number below 2^k has at most k digits. *)
Fixpoint show_digits (fuel : nat) (z : Z) : bytes :=
  match fuel with
  | O => []
  | S fuel' => if z <? 10 then [zb (48 + z)] else show_digits fuel' (z / 10) ++ [zb (48 + z mod 10)]
  end.
Definition show_nat (z : Z) : bytes := show_digits (S (Z.to_nat (Z.log2 z))) z.
Definition show_int (z : Z) : bytes := if z <? 0 then "-"%byte :: show_nat (- z) else show_nat z.
(** fmt %t *)
Definition show_bool (b : bool) : bytes := if b then str "true" else str "false".
