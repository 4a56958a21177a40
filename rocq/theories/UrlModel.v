(** Model of connection strings: net/url as far as db.go uses it, and
    ParseConnectionString and the first half of Open (db.go:120-147, 199-240).
    net/url is the one of Go 1.26 (go.mod:3): Parse, parseAuthority, parseHost,
    validUserinfo, unescape, ParseQuery.  Bracketed hosts are decided by a
    parameter ([lit]): what net/url makes of an authority's host with a '[' in it.
    configloader.ResolveValue is a parameter too ([rs]): the text a data source
    stands for, or an error. *)
From Verif Require Import GoBase.

(** ** Characters *)
Definition code (c : ascii) : nat := nat_of_ascii c.
Definition between (a b : nat) (c : ascii) : bool := (a <=? code c)%nat && (code c <=? b)%nat.
Definition is_letter (c : ascii) : bool := between 97 122 c || between 65 90 c.
Definition is_digit (c : ascii) : bool := between 48 57 c.
Definition oneof (s : string) (c : ascii) : bool := in_set (B s) c.
(** net/url ishex, unhex *)
Definition unhex (c : ascii) : option nat :=
  if is_digit c then Some (code c - 48)%nat else if between 97 102 c then Some (code c - 87)%nat else if between 65 70 c then Some (code c - 55)%nat else None.

(** ** net/url unescape *)
Inductive emode := EHost | EPath | EUser | EQuery | EFrag.
Definition is_host (m : emode) : bool := match m with EHost => true | _ => false end.
Definition is_query (m : emode) : bool := match m with EQuery => true | _ => false end.
(** shouldEscape(c, encodeHost) *)
Definition host_char (c : ascii) : bool := is_letter c || is_digit c || oneof "!$&'()*+,;=:[]<>""-_.~" c.
(** unescape: None is an error.  In a host only bytes from 0x80 and the percent sign
    are escaped, and only the characters of hosts are taken as they are. *)
Fixpoint unescape (m : emode) (s : bytes) : option bytes :=
  match s with
  | [] => Some []
  | x :: r =>
      if Ascii.eqb x (ch 37) then
        match r with
        | a :: b :: r' =>
            match unhex a, unhex b with
            | Some h, Some l =>
                if is_host m && (h <? 8)%nat && negb (Ascii.eqb a (ch 50) && Ascii.eqb b (ch 53)) then None
                else option_map (cons (ascii_of_nat (16 * h + l))) (unescape m r')
            | _, _ => None
            end
        | _ => None
        end
      else if Ascii.eqb x (ch 43) && is_query m then option_map (cons (ch 32)) (unescape m r)
      else if is_host m && (code x <? 128)%nat && negb (host_char x) then None
      else option_map (cons x) (unescape m r)
  end.

(** ** net/url Parse *)
(** strings.Cut at the first [c]; at the last one *)
Fixpoint cut (c : ascii) (s : bytes) : option (bytes * bytes) :=
  match s with
  | [] => None
  | x :: r => if Ascii.eqb x c then Some ([], r) else match cut c r with Some (a, b) => Some (x :: a, b) | None => None end
  end.
Fixpoint cut_last (c : ascii) (s : bytes) : option (bytes * bytes) :=
  match s with
  | [] => None
  | x :: r => match cut_last c r with
              | Some (a, b) => Some (x :: a, b)
              | None => if Ascii.eqb x c then Some ([], r) else None
              end
  end.
Definition before (c : ascii) (s : bytes) : bytes := match cut c s with Some (a, _) => a | None => s end.
Definition after (c : ascii) (s : bytes) : bytes := match cut c s with Some (_, b) => b | None => [] end.
Definition has (c : ascii) (s : bytes) : bool := existsb (Ascii.eqb c) s.
(** getScheme: None is an error (a colon first) *)
Fixpoint scheme_loop (seen : bytes) (s : bytes) : option (bytes * bytes) :=
  match s with
  | [] => Some ([], rev seen)
  | x :: r =>
      if is_letter x then scheme_loop (x :: seen) r
      else if is_digit x || oneof "+-." x then (if is_empty seen then Some ([], s) else scheme_loop (x :: seen) r)
      else if Ascii.eqb x (ch 58) then (if is_empty seen then None else Some (rev seen, r))
      else Some ([], rev seen ++ s)
  end.
Definition get_scheme (s : bytes) : option (bytes * bytes) := scheme_loop [] s.
(** stringContainsCTLByte *)
Definition is_ctl (c : ascii) : bool := (code c <? 32)%nat || (code c =? 127)%nat.
(** parseHost; the port (validOptionalPort) is digits, after the first colon, for PostgreSQL
    after the last *)
Definition is_pg (scheme : bytes) : bool := beqb scheme (B "postgres") || beqb scheme (B "postgresql").
Definition parse_host (lit : bytes -> option bytes) (scheme host : bytes) : option bytes :=
  if has (ch 91) host then lit host
  else
    let port := if is_pg scheme then option_map snd (cut_last (ch 58) host) else option_map snd (cut (ch 58) host) in
    match port with
    | Some p => if forallb is_digit p then unescape EHost host else None
    | None => unescape EHost host
    end.
(** validUserinfo; any other rune is refused, also those above 0x7f *)
Definition user_char (c : ascii) : bool := is_letter c || is_digit c || oneof "-._:~!$&'()*+,;=%@" c.
(** parseAuthority: the user and password, the host *)
Definition userinfo := option (bytes * option bytes).
Definition parse_authority (lit : bytes -> option bytes) (scheme a : bytes) : option (userinfo * bytes) :=
  match cut_last (ch 64) a with
  | None => match parse_host lit scheme a with Some h => Some (None, h) | None => None end
  | Some (ui, h) =>
      match parse_host lit scheme h with
      | None => None
      | Some h =>
          if negb (forallb user_char ui) then None
          else match cut (ch 58) ui with
               | None => match unescape EUser ui with Some u => Some (Some (u, None), h) | None => None end
               | Some (u, p) => match unescape EUser u, unescape EUser p with Some u, Some p => Some (Some (u, Some p), h) | _, _ => None end
               end
      end
  end.
Record url := mkUrl { u_scheme : bytes; u_user : userinfo; u_host : bytes; u_query : bytes }.
(** parse, without the fragment.  A query after the only '?' at the end is empty
    (ForceQuery), as it is when cut there; the path and the opaque part are left out,
    an error in the path's escapes is not. *)
Definition parse_rest (lit : bytes -> option bytes) (scheme rest query : bytes) : option url :=
  let opaque := mkUrl scheme None [] query in
  if negb (has_prefix (B "/") rest) then
    if negb (is_empty scheme) then Some opaque
    else if has (ch 58) (before (ch 47) rest) then None
    else match unescape EPath rest with Some _ => Some opaque | None => None end
  else if has_prefix (B "//") rest && (negb (is_empty scheme) || negb (has_prefix (B "///") rest)) then
    let auth := skipn 2 rest in
    let path := match cut (ch 47) auth with Some (_, p) => ch 47 :: p | None => [] end in
    match parse_authority lit scheme (before (ch 47) auth) with
    | Some (ui, h) => match unescape EPath path with Some _ => Some (mkUrl scheme ui h query) | None => None end
    | None => None
    end
  else match unescape EPath rest with Some _ => Some opaque | None => None end.
Definition parse_main (lit : bytes -> option bytes) (s : bytes) : option url :=
  if existsb is_ctl s then None
  else if beqb s (B "*") then Some (mkUrl [] None [] [])
  else match get_scheme s with
       | None => None
       | Some (sch, rest) => parse_rest lit (map lower_ascii sch) (before (ch 63) rest) (after (ch 63) rest)
       end.
(** Parse: the fragment is what follows the first '#' *)
Definition parse_url (lit : bytes -> option bytes) (s : bytes) : option url :=
  match parse_main lit (before (ch 35) s), unescape EFrag (after (ch 35) s) with
  | Some u, Some _ => Some u
  | _, _ => None
  end.

(** ** net/url ParseQuery, called by URL.Query, which drops the error *)
(** urlmaxqueryparams *)
Definition max_params : Z := 10000.
(** A part between '&': nothing comes of one with a ';' or with a bad escape *)
Definition query_part (p : bytes) : list (bytes * bytes) :=
  if has (ch 59) p then [] else if is_empty p then []
  else match unescape EQuery (before (ch 61) p), unescape EQuery (after (ch 61) p) with Some k, Some v => [(k, v)] | _, _ => [] end.
Definition query_pairs (q : bytes) : list (bytes * bytes) :=
  let parts := split_on (ch 38) q in
  if (max_params <? Z.of_nat (length parts))%Z then [] else flat_map query_part parts.
(** url.Values.Get: the first value *)
Fixpoint qget (k : bytes) (l : list (bytes * bytes)) : option bytes :=
  match l with [] => None | (j, v) :: r => if beqb j k then Some v else qget k r end.
Definition from_opt (o : option bytes) : bytes := match o with Some v => v | None => [] end.

(** ** db.go *)
(** strings.Trim(ds, dquote), strings.TrimSpace (ASCII), db.go:126-127, 216-217 *)
Definition spaces : bytes := [ch 32; ch 9; ch 10; ch 11; ch 12; ch 13].
Definition clean_ds (s : bytes) : bytes := trim spaces (trim [ch 34] s).
(** db.go:199-207 Source; [so_params] holds all values in order, Params[k] is the
    first value of k (db.go:235-237) *)
Record source := mkSource { so_text : bytes; so_driver : bytes; so_host : bytes; so_user : bytes; so_password : bytes; so_database : bytes; so_params : list (bytes * bytes) }.
(** db.go:223-237, after url.Parse; Username and Password of a nil *Userinfo are empty *)
Definition make_source (ds : bytes) (u : url) : source :=
  let q := query_pairs (u_query u) in
  mkSource ds (u_scheme u) (u_host u)
    (match u_user u with Some (n, _) => n | None => [] end)
    (match u_user u with Some (_, Some p) => p | _ => [] end)
    (strings_coalesce (from_opt (qget (B "dbname") q)) (from_opt (qget (B "database") q))) q.
(** db.go:211-240 ParseConnectionString; None is an error *)
Definition parse_source (rs lit : bytes -> option bytes) (s : bytes) : option source :=
  match rs s with
  | None => None
  | Some v => let ds := clean_ds v in option_map (make_source ds) (parse_url lit ds)
  end.
Definition param (s : source) (k : bytes) : option bytes := qget k (so_params s).
(** db.go:120-147 Open: the driver and the string given to sql.Open; None is an error
    before that *)
Definition open_string (rs lit : bytes -> option bytes) (dataSource database : bytes) : option (bytes * bytes) :=
  match rs dataSource with
  | None => None
  | Some v =>
      let ds := clean_ds v in
      match parse_source rs lit ds with
      | None => None
      | Some src =>
          let driver := so_driver src in
          if is_empty database then Some (driver, ds)
          else if beqb driver (B "sqlserver") then Some (driver, ds ++ B "&database=" ++ database)
          else if beqb driver (B "postgres") then
            Some (driver, if contains (B "host=") ds then ds ++ B " dbname=" ++ database else ds ++ B "&dbname=" ++ database)
          else None
      end
  end.
