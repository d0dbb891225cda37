(** * The predefined patterns (includes/argus/regex.h) and the regular expressions they use

    PCRE2 is not part of the repository.  What is modelled of it is the syntax that occurs in
    regex.h and its meaning as documented (pcre2pattern(3)), with the options of
    regex_validator.c 48-62: none, no start offset, newline is LF, C locale tables.  Limits of
    the matcher (depth, time) are not modelled. *)
From Verif Require Export CLib.

(** ** Syntax *)

(** A set of characters: ranges, possibly negated. *)
Record cset := CSet { negated : bool; ranges : list (ascii * ascii) }.
Inductive re :=
  | REmpty
  | RSet (k : cset)
  | RSeq (a b : re)
  | RAlt (a b : re)
  | RRep (lo : nat) (hi : option nat) (a : re)   (* greedy, at least [lo], at most [hi] times *)
  | RStart                                       (* ^ *)
  | REnd                                         (* $ *)
  | RAhead (positive : bool) (a : re)            (* (?=a) and (?!a) *)
  | RBehind (positive : bool) (k : cset).        (* (?<=c) and (?<!c) for one character *)

Definition in_range (c : ascii) (r : ascii * ascii) : bool :=
  (code (fst r) <=? code c) && (code c <=? code (snd r)).
Definition in_set (k : cset) (c : ascii) : bool :=
  xorb (negated k) (existsb (in_range c) (ranges k)).

Definition newline : ascii := "010"%char.
Definition single (c : ascii) : cset := CSet false [(c, c)].
(** [.]: anything but a newline *)
Definition any_char : cset := CSet true [(newline, newline)].
(** \d, \w, \s *)
Definition digit_ranges : list (ascii * ascii) := [("0"%char, "9"%char)].
Definition word_ranges : list (ascii * ascii) :=
  [("a"%char, "z"%char); ("A"%char, "Z"%char); ("0"%char, "9"%char); ("_"%char, "_"%char)].
Definition space_ranges : list (ascii * ascii) := [("009"%char, "013"%char); (" "%char, " "%char)].
(** The ranges of an escaped character: a class, or a punctuation character itself.  Other
    escaped letters and digits (\b, \n, \1, ...) are outside the modelled syntax. *)
Definition escaped (c : ascii) : option (list (ascii * ascii)) :=
  if Ascii.eqb c "d" then Some digit_ranges
  else if Ascii.eqb c "w" then Some word_ranges
  else if Ascii.eqb c "s" then Some space_ranges
  else if existsb (in_range c) word_ranges then None
  else Some [(c, c)].

(** ** Reading a pattern *)

(** The inside of [...] after an initial ^: a dash between two characters makes a range, a dash
    at either end stands for itself.  Not modelled: an opening bracket inside (POSIX classes), a
    closing bracket as the first character, an escape next to the dash of a range. *)
Fixpoint read_class (n : nat) (s : cstr) (acc : list (ascii * ascii)) : option (list (ascii * ascii) * cstr) :=
  match n with
  | O => None
  | S n =>
      match s with
      | [] => None
      | "]"%char :: r => match acc with [] => None | _ => Some (rev acc, r) end
      | "["%char :: _ => None
      | "\"%char :: c :: "-"%char :: "]"%char :: r =>
          match escaped c with
          | Some l => Some (rev acc ++ l ++ [("-"%char, "-"%char)], r)
          | None => None
          end
      | "\"%char :: _ :: "-"%char :: _ => None
      | "\"%char :: c :: r =>
          match escaped c with
          | Some l => read_class n r (rev l ++ acc)
          | None => None
          end
      | a :: "-"%char :: "]"%char :: r => Some (rev acc ++ [(a, a); ("-"%char, "-"%char)], r)
      | _ :: "-"%char :: "\"%char :: _ => None
      | a :: "-"%char :: b :: r => if code a <=? code b then read_class n r ((a, b) :: acc) else None
      | a :: r => read_class n r ((a, a) :: acc)
      end
  end.

Definition digit (c : ascii) : option nat :=
  if in_range c ("0"%char, "9"%char) then Some (Z.to_nat (code c - 48)) else None.
Fixpoint read_number (s : cstr) (acc : option nat) : option nat * cstr :=
  match s with
  | c :: r =>
      match digit c with
      | Some d => read_number r (Some (10 * default 0 acc + d)%nat)
      | None => (acc, s)
      end
  | [] => (acc, s)
  end.
(** A quantifier, if there is one, applied to [a].  The lazy and possessive forms (a further ? or
    +) are refused by [read_atom]. *)
Definition read_quantifier (a : re) (s : cstr) : option (re * cstr) :=
  match s with
  | "?"%char :: r => Some (RRep 0 (Some 1%nat) a, r)
  | "*"%char :: r => Some (RRep 0 None a, r)
  | "+"%char :: r => Some (RRep 1 None a, r)
  | "{"%char :: r =>
      match read_number r None with
      | (Some lo, "}"%char :: r') => Some (RRep lo (Some lo) a, r')
      | (Some lo, ","%char :: r') =>
          match read_number r' None with
          | (hi, "}"%char :: r'') => if from_option (Nat.leb lo) true hi then Some (RRep lo hi a, r'') else None
          | _ => None
          end
      | _ => None
      end
  | _ => Some (a, s)
  end.

(** What follows [r] must be a closing parenthesis. *)
Definition closed (f : re -> re) (r : option (re * cstr)) : option (re * cstr) :=
  match r with
  | Some (a, ")"%char :: r') => Some (f a, r')
  | _ => None
  end.
Fixpoint read_alt (n : nat) (s : cstr) : option (re * cstr) :=
  match n with
  | O => None
  | S n =>
      match read_seq n s with
      | Some (a, "|"%char :: r) =>
          match read_alt n r with
          | Some (b, r') => Some (RAlt a b, r')
          | None => None
          end
      | x => x
      end
  end
with read_seq (n : nat) (s : cstr) : option (re * cstr) :=
  match n with
  | O => None
  | S n =>
      match s with
      | [] | "|"%char :: _ | ")"%char :: _ => Some (REmpty, s)
      | _ =>
          match read_atom n s with
          | Some (a, r) =>
              match read_quantifier a r with
              | Some (a', r') =>
                  match read_seq n r' with
                  | Some (b, r'') => Some (RSeq a' b, r'')
                  | None => None
                  end
              | None => None
              end
          | None => None
          end
      end
  end
with read_atom (n : nat) (s : cstr) : option (re * cstr) :=
  match n with
  | O => None
  | S n =>
      match s with
      | "("%char :: "?"%char :: ":"%char :: r => closed (fun a => a) (read_alt n r)
      | "("%char :: "?"%char :: "="%char :: r => closed (RAhead true) (read_alt n r)
      | "("%char :: "?"%char :: "!"%char :: r => closed (RAhead false) (read_alt n r)
      | "("%char :: "?"%char :: "<"%char :: "!"%char :: "-"%char :: ")"%char :: r => Some (RBehind false (single "-"), r)
      | "("%char :: "?"%char :: _ => None
      | "("%char :: r => closed (fun a => a) (read_alt n r)
      | "["%char :: "^"%char :: r =>
          match read_class n r [] with Some (l, r') => Some (RSet (CSet true l), r') | None => None end
      | "["%char :: r =>
          match read_class n r [] with Some (l, r') => Some (RSet (CSet false l), r') | None => None end
      | "^"%char :: r => Some (RStart, r)
      | "$"%char :: r => Some (REnd, r)
      | "."%char :: r => Some (RSet any_char, r)
      | "\"%char :: c :: r =>
          match escaped c with Some l => Some (RSet (CSet false l), r) | None => None end
      | "?"%char :: _ | "*"%char :: _ | "+"%char :: _ | "{"%char :: _ | "\"%char :: _ => None
      | c :: r => Some (RSet (single c), r)
      | [] => None
      end
  end.
(** pcre2_compile (regex_validator.c 48-49); [None]: outside the modelled syntax. *)
Definition compile (p : cstr) : option re :=
  match read_alt (3 * length p + 3) p with
  | Some (r, []) => Some r
  | _ => None
  end.

(** ** Meaning *)

(** [M pre w post]: the text [w], standing between [pre] and [post], is matched.  [k] times: *)
Fixpoint times (M : cstr -> cstr -> cstr -> Prop) (k : nat) (pre w post : cstr) : Prop :=
  match k with
  | O => w = []
  | S k => exists u v, w = u ++ v /\ M pre u (v ++ post) /\ times M k (pre ++ u) v post
  end.
Fixpoint matches (r : re) (pre w post : cstr) {struct r} : Prop :=
  match r with
  | REmpty => w = []
  | RSet k => exists c, w = [c] /\ in_set k c = true
  | RSeq a b => exists u v, w = u ++ v /\ matches a pre u (v ++ post) /\ matches b (pre ++ u) v post
  | RAlt a b => matches a pre w post \/ matches b pre w post
  | RRep lo hi a => exists k, (lo <= k)%nat /\ (forall h, hi = Some h -> (k <= h)%nat) /\ times (matches a) k pre w post
  | RStart => w = [] /\ pre = []
  | REnd => w = [] /\ (post = [] \/ post = [newline])
  | RAhead positive a =>
      w = [] /\ let found := exists u v, post = u ++ v /\ matches a pre u v in if positive then found else ~ found
  | RBehind positive k =>
      w = [] /\ let found := exists p c, pre = p ++ [c] /\ in_set k c = true in if positive then found else ~ found
  end.
(** pcre2_match (regex_validator.c 61-62): a match may begin and end anywhere. *)
Definition found (r : re) (s : cstr) : Prop := exists pre w post, s = pre ++ w ++ post /\ matches r pre w post.

(** The text [s] satisfies the pattern [p]. *)
Definition satisfies (p s : cstr) : Prop := exists r, compile p = Some r /\ found r s.
(** The regular expression library behaves so on the patterns of the modelled syntax. *)
Definition pcre2 (L : Libc) : Prop := forall p r s, compile p = Some r ->
  (found r s -> regex_match p s = RxMatch) /\ (~ found r s -> regex_match p s = RxNoMatch).

(** ** The patterns (regex.h 97-216, with ARGUS_REGEX) *)

(** ARGUS_RE_IPV4: IPv4 address: 0-255.0-255.0-255.0-255 (regex.h 98-101); hint "IPv4" *)
Definition RE_IPV4 : cstr := $"^((25[0-5]|2[0-4][0-9]|[01]?[0-9][0-9]?)\.){3}(25[0-5]|2[0-4][0-9]|[01]?[0-9][0-9]?)".
(** ARGUS_RE_IPV6: Simplified IPv6 pattern (regex.h 104-120); hint "IPv6" *)
Definition RE_IPV6 : cstr := $"^(([0-9a-fA-F]{1,4}:){7,7}[0-9a-fA-F]{1,4}|([0-9a-fA-F]{1,4}:){1,7}:|([0-9a-fA-F]{1,4}:){1,6}:[0-9a-fA-F]{1,4}|([0-9a-fA-F]{1,4}:){1,5}(:[0-9a-fA-F]{1,4}){1,2}|([0-9a-fA-F]{1,4}:){1,4}(:[0-9a-fA-F]{1,4}){1,3}|([0-9a-fA-F]{1,4}:){1,3}(:[0-9a-fA-F]{1,4}){1,4}|([0-9a-fA-F]{1,4}:){1,2}(:[0-9a-fA-F]{1,4}){1,5}|[0-9a-fA-F]{1,4}:((:[0-9a-fA-F]{1,4}){1,6})|:((:[0-9a-fA-F]{1,4}){1,7}|:)|fe80:(:[0-9a-fA-F]{0,4}){0,4}%[0-9a-zA-Z]{1,}|::(ffff(:0{1,4}){0,1}:){0,1}((25[0-5]|(2[0-4]|1{0,1}[0-9]){0,1}[0-9])\.){3,3}(25[0-5]|(2[0-4]|1{0,1}[0-9]){0,1}[0-9])|([0-9a-fA-F]{1,4}:){1,4}:((25[0-5]|(2[0-4]|1{0,1}[0-9]){0,1}[0-9])\.){3,3}(25[0-5]|(2[0-4]|1{0,1}[0-9]){0,1}[0-9]))$".
(** ARGUS_RE_DOMAIN: FQDN (Fully Qualified Domain Name) (regex.h 123-124); hint "domain" *)
Definition RE_DOMAIN : cstr := $"^(?=.{1,253}$)((?!-)[A-Za-z0-9-]{1,63}(?<!-)\.)+[A-Za-z]{2,}$".
(** ARGUS_RE_URL: URL pattern - supports many protocols (regex.h 127); hint "URL" *)
Definition RE_URL : cstr := $"^([a-zA-Z][a-zA-Z0-9+.-]*):\/\/[^\s/$.?#].[^\s]*$".
(** ARGUS_RE_HTTP: More specific URL patterns (regex.h 130); hint "HTTP-URL" *)
Definition RE_HTTP : cstr := $"^https?:\/\/[^\s/$.?#].[^\s]*$".
(** ARGUS_RE_PORT: Basic port number (1-65535) (regex.h 133-136); hint "port" *)
Definition RE_PORT : cstr := $"^([1-9][0-9]{0,3}|[1-5][0-9]{4}|6[0-4][0-9]{3}|65[0-4][0-9]{2}|655[0-2][0-9]|6553[0-5])$".
(** ARGUS_RE_EMAIL: Basic email validation (regex.h 143); hint "email" *)
Definition RE_EMAIL : cstr := $"^[a-zA-Z0-9._%+-]+@[a-zA-Z0-9.-]+\.[a-zA-Z]{2,}$".
(** ARGUS_RE_EMAIL_STRICT: More strict email validation (regex.h 146-151); hint "email-strict" *)
Definition RE_EMAIL_STRICT : cstr := $"^[a-zA-Z0-9.!#$%&'*+/=?^_`{|}~-]+@[a-zA-Z0-9](?:[a-zA-Z0-9-]{0,61}[a-zA-Z0-9])?(?:\.[a-zA-Z0-9](?:[a-zA-Z0-9-]{0,61}[a-zA-Z0-9])?)*$".
(** ARGUS_RE_ISO_DATE: ISO 8601 date (YYYY-MM-DD) (regex.h 158-159); hint "YYYY-MM-DD" *)
Definition RE_ISO_DATE : cstr := $"^\d{4}-([0][1-9]|[1][0-2])-([0][1-9]|[1-2][0-9]|[3][0-1])$".
(** ARGUS_RE_ISOTIME: ISO 8601 datetime (YYYY-MM-DDThh:mm:ss) (regex.h 162-166); hint "ISO-datetime" *)
Definition RE_ISOTIME : cstr := $"^\d{4}-([0][1-9]|[1][0-2])-([0][1-9]|[1-2][0-9]|[3][0-1])T([0][0-9]|[1][0-9]|[2][0-3]):([0-5][0-9]):([0-5][0-9])$".
(** ARGUS_RE_USER: Username: 3-20 characters, alphanumeric with underscores and hyphens (regex.h 173); hint "username" *)
Definition RE_USER : cstr := $"^[a-zA-Z0-9_-]{3,20}$".
(** ARGUS_RE_PASSWD: Simple password (8+ chars, at least one letter and one number) (regex.h 176); hint "password" *)
Definition RE_PASSWD : cstr := $"^(?=.*[A-Za-z])(?=.*\d)[A-Za-z\d]{8,}$".
(** ARGUS_RE_UUID: UUID (version 4) (regex.h 179-182); hint "UUID" *)
Definition RE_UUID : cstr := $"^[0-9a-fA-F]{8}-[0-9a-fA-F]{4}-4[0-9a-fA-F]{3}-[89abAB][0-9a-fA-F]{3}-[0-9a-fA-F]{12}$".
(** ARGUS_RE_UNIX_PATH: Unix absolute path (regex.h 189); hint "unix-path" *)
Definition RE_UNIX_PATH : cstr := $"^(/[^/ ]*)+/?$".
(** ARGUS_RE_FILENAME: File name with extension (regex.h 192); hint "filename" *)
Definition RE_FILENAME : cstr := $"^[\w,\s-]+\.[A-Za-z]{1,5}$".
(** ARGUS_RE_SEMVER: Semantic version (major.minor.patch) (regex.h 199-204); hint "semver" *)
Definition RE_SEMVER : cstr := $"^(0|[1-9]\d*)\.(0|[1-9]\d*)\.(0|[1-9]\d*)(?:-((?:0|[1-9]\d*|\d*[a-zA-Z-][0-9a-zA-Z-]*)(?:\.(?:0|[1-9]\d*|\d*[a-zA-Z-][0-9a-zA-Z-]*))*))?(?:\+([0-9a-zA-Z-]+(?:\.[0-9a-zA-Z-]+)*))?$".
(** ARGUS_RE_POS_INT: Positive integer (regex.h 207); hint "positive-int" *)
Definition RE_POS_INT : cstr := $"^[1-9][0-9]*$".
(** ARGUS_RE_NEG_INT: Negative integer (regex.h 210); hint "negative-int" *)
Definition RE_NEG_INT : cstr := $"^-[1-9][0-9]*$".
(** ARGUS_RE_FLOAT: Float (positive or negative with decimal places) (regex.h 213); hint "decimal" *)
Definition RE_FLOAT : cstr := $"^[-+]?[0-9]*\.?[0-9]+$".
(** ARGUS_RE_HEX: Hex number with 0x prefix (regex.h 216); hint "hex" *)
Definition RE_HEX : cstr := $"^0x[0-9a-fA-F]+$".

(** What the application passes for ARGUS_RE_X: the pattern, or the empty stub of regex.h 13-83
    when the application itself is compiled without ARGUS_REGEX.  Only the library's own build
    defines it (meson.build 39; the pkg-config file and the declared dependency of meson.build
    66-88 do not). *)
Definition predefined (application_has_regex : bool) (p : cstr) : cstr := if application_has_regex then p else [].
