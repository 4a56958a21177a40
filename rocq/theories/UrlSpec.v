(** Vocabulary of the theorems on connection strings: how text is written in a URL
    (RFC 3986), independent of the parser. *)
From Verif Require Import GoBase UrlModel.

(** ** Writing text with percent signs *)
(** The value of a hexadecimal digit, in either case *)
Definition hex_digit (c : ascii) (n : nat) : Prop := nth_error (B "0123456789abcdef") n = Some c \/ nth_error (B "0123456789ABCDEF") n = Some c.
(** [e] is a way of writing [v]: a character that is safe stands for itself, any byte
    can be written %XX, and where [plus] holds a blank can be written + *)
Inductive encodes (safe : ascii -> Prop) (plus : Prop) : bytes -> bytes -> Prop :=
| en_nil : encodes safe plus [] []
| en_char c e v : safe c -> encodes safe plus e v -> encodes safe plus (c :: e) (c :: v)
| en_plus e v : plus -> encodes safe plus e v -> encodes safe plus (ch 43 :: e) (ch 32 :: v)
| en_hex a b x y e v : hex_digit a x -> hex_digit b y -> encodes safe plus e v -> encodes safe plus (ch 37 :: a :: b :: e) (ascii_of_nat (16 * x + y) :: v).
(** RFC 3986: unreserved characters and sub-delims *)
Definition chars (s : string) (c : ascii) : Prop := In c (B s).
Definition letter (c : ascii) : Prop := chars "abcdefghijklmnopqrstuvwxyzABCDEFGHIJKLMNOPQRSTUVWXYZ" c.
Definition digit (c : ascii) : Prop := chars "0123456789" c.
Definition unreserved (c : ascii) : Prop := letter c \/ digit c \/ chars "-._~" c.
Definition sub_delim (c : ascii) : Prop := chars "!$&'()*+,;=" c.
(** A user name and a password as they are written before the host *)
Definition in_user (c : ascii) : Prop := unreserved c \/ sub_delim c.
Definition in_password (c : ascii) : Prop := in_user c \/ c = ch 58.
Definition writes_user := encodes in_user False.
Definition writes_password := encodes in_password False.
(** A key and a value as they are written in the query *)
Definition in_key (c : ascii) : Prop := unreserved c \/ chars "!$'()*,/:?@" c.
Definition in_value (c : ascii) : Prop := in_key c \/ c = ch 61.
Definition writes_key := encodes in_key True.
Definition writes_value := encodes in_value True.
Definition writes_param (e : bytes) (kv : bytes * bytes) : Prop := exists ek ev, writes_key ek (fst kv) /\ writes_value ev (snd kv) /\ e = ek ++ ch 61 :: ev.
(** scheme: a letter, then letters, digits and + - . *)
Definition scheme_text (s : bytes) : Prop := match s with [] => False | c :: r => letter c /\ Forall (fun c => letter c \/ digit c \/ chars "+-." c) r end.
(** host or host:port, written plainly *)
Definition host_text (h : bytes) : Prop := exists name, Forall (fun c => unreserved c \/ sub_delim c) name /\ (h = name \/ exists port, Forall digit port /\ h = name ++ ch 58 :: port).
(** a path: nothing, or / and plain characters *)
Definition path_text (p : bytes) : Prop := p = [] \/ exists r, p = ch 47 :: r /\ Forall (fun c => unreserved c \/ sub_delim c \/ chars "/:@" c) r.
(** The first value given for a key *)
Definition first_value (k : bytes) (l : list (bytes * bytes)) : option bytes := match filter (fun kv => beqb (fst kv) k) l with [] => None | kv :: _ => Some (snd kv) end.

(** ** Data sources *)
(** Not a reference to a file or to the environment: resolving leaves it alone *)
Definition resolved (rs : bytes -> option bytes) (s : bytes) : Prop := rs s = Some s.
(** All values given for a key, in order *)
Definition values_of (k : bytes) (s : source) : list bytes := map snd (filter (fun kv => beqb (fst kv) k) (so_params s)).
(** A printable name without blanks, quotes and what has a meaning in a query *)
Definition plain_char (c : ascii) : Prop := (33 <= nat_of_ascii c)%nat /\ nat_of_ascii c <> 127%nat /\ ~ chars "#&;%+""" c.
Definition plain (s : bytes) : Prop := Forall plain_char s.
(** What a part of a query (between two '&') is reported as: nothing when it is empty,
    has a ';' or a wrong escape; otherwise a key and a value *)
Definition reads : bytes -> bytes -> Prop := encodes (fun c => c <> ch 37 /\ c <> ch 43) True.
Definition part_reads (e : bytes) (kv : bytes * bytes) : Prop :=
  exists ek, ~ In (ch 61) ek /\ reads ek (fst kv) /\ (e = ek /\ e <> [] /\ snd kv = [] \/ exists ev, e = ek ++ ch 61 :: ev /\ reads ev (snd kv)).
Definition part_shows (e : bytes) (l : list (bytes * bytes)) : Prop :=
  l = [] /\ (In (ch 59) e \/ forall kv, ~ part_reads e kv) \/ exists kv, l = [kv] /\ ~ In (ch 59) e /\ part_reads e kv.
(** A text that can be part of a query: no '&', '#' nor control characters *)
Definition query_text (e : bytes) : Prop := Forall (fun c => (32 <= nat_of_ascii c)%nat /\ nat_of_ascii c <> 127%nat /\ ~ chars "&#" c) e.

(** ** Hosts *)
(** How a host is read: a character that may be in a host, or a byte from 0x80, stands
    for itself; only a percent sign and the bytes from 0x80 can be escaped *)
Inductive host_reads : bytes -> bytes -> Prop :=
| hr_nil : host_reads [] []
| hr_char c e v : unreserved c \/ sub_delim c \/ chars ":[]<>""" c \/ (128 <= nat_of_ascii c)%nat -> host_reads e v -> host_reads (c :: e) (c :: v)
| hr_byte a b x y e v : hex_digit a x -> hex_digit b y -> (8 <= x)%nat -> host_reads e v -> host_reads (ch 37 :: a :: b :: e) (ascii_of_nat (16 * x + y) :: v)
| hr_percent e v : host_reads e v -> host_reads (B "%25" ++ e) (ch 37 :: v).
(** The schemes of PostgreSQL, in any case *)
Definition pg_scheme (sch : bytes) : Prop := In (map lower_ascii sch) [B "postgres"; B "postgresql"].
(** Its port is a number: what follows the last colon for PostgreSQL (which lists
    several hosts), the first and only one otherwise; it can be empty or missing *)
Definition port_ok (pg : Prop) (h : bytes) : Prop :=
  ~ In (ch 58) h \/ exists name port, h = name ++ ch 58 :: port /\ Forall digit port /\ (~ pg -> ~ In (ch 58) name).
(** What can be before the path without ending it or what is before it *)
Definition in_authority (c : ascii) : Prop := (32 <= nat_of_ascii c)%nat /\ nat_of_ascii c <> 127%nat /\ ~ chars "/?#@[" c.
(** Nothing, or user:password@ *)
Definition credentials (cred u p : bytes) : Prop := cred = [] /\ u = [] /\ p = [] \/ exists eu ep, writes_user eu u /\ writes_password ep p /\ cred = eu ++ ch 58 :: ep ++ [ch 64].
(** Written within quotes, and within blanks inside these *)
Definition blank (c : ascii) : Prop := In (nat_of_ascii c) [32; 9; 10; 11; 12; 13]%nat.
(** Begins and ends with something else *)
Definition bare (s : bytes) : Prop := exists a m z, (s = [a] /\ z = a \/ s = a :: m ++ [z]) /\ ~ blank a /\ a <> ch 34 /\ ~ blank z /\ z <> ch 34.
