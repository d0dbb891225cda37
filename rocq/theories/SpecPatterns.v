(** * What the predefined patterns are documented to accept

    Written without the model of regular expressions: only texts, sets of characters and the
    number a row of digits stands for. *)
From Verif Require Export CLib.

Definition digits : cstr := $"0123456789".
Definition letters : cstr := $"ABCDEFGHIJKLMNOPQRSTUVWXYZabcdefghijklmnopqrstuvwxyz".
Definition hexes : cstr := $"0123456789abcdefABCDEF".
(** space, tab, newline, vertical tab, form feed, carriage return *)
Definition blanks : cstr := [" "; "009"; "010"; "011"; "012"; "013"]%char.
Definition made_of (set t : cstr) : Prop := Forall (.∈ set) t.
Definition free_of (set t : cstr) : Prop := Forall (.∉ set) t.
(** Between [lo] and [hi] characters. *)
Definition sized (lo hi : nat) (t : cstr) : Prop := (lo <= length t <= hi)%nat.
Definition number (t : cstr) : Z := fold_left (fun n c => 10 * n + (code c - 48)) t 0.
Fixpoint joined (sep : cstr) (l : list cstr) : cstr :=
  match l with
  | [] => []
  | [x] => x
  | x :: r => x ++ sep ++ joined sep r
  end.
(** A text of the form [P], or such a text and a newline. *)
Definition line (P : cstr -> Prop) (s : cstr) : Prop := P s \/ exists t, s = t ++ ["010"%char] /\ P t.

(** ** Numbers (regex.h 132-136, 206-216) *)
(** digits without a superfluous zero in front *)
Definition plain_number (t : cstr) : Prop := made_of digits t /\ t <> [] /\ (head t = Some "0"%char -> t = $"0").
Definition port (t : cstr) : Prop := plain_number t /\ 1 <= number t <= 65535.
Definition positive_integer (t : cstr) : Prop := plain_number t /\ 0 < number t.
Definition negative_integer (t : cstr) : Prop := exists n, t = "-"%char :: n /\ positive_integer n.
Definition hex_number (t : cstr) : Prop := exists n, t = $"0x" ++ n /\ made_of hexes n /\ n <> [].
Definition decimal (t : cstr) : Prop := exists sign body a b,
  t = sign ++ body /\ (sign = [] \/ sign = $"+" \/ sign = $"-") /\
  made_of digits a /\ made_of digits b /\ b <> [] /\ (body = b \/ body = a ++ $"." ++ b).

(** ** The network (regex.h 97-130) *)
Definition octet (t : cstr) : Prop := made_of digits t /\ sized 1 3 t /\ number t <= 255.
Definition ipv4 (t : cstr) : Prop := exists a b c d,
  t = joined $"." [a; b; c; d] /\ octet a /\ octet b /\ octet c /\ octet d.
(** RFC 4291, 2.2, forms 1 and 2 *)
Definition group (t : cstr) : Prop := made_of hexes t /\ sized 1 4 t.
Definition ipv6 (t : cstr) : Prop :=
  (exists gs, length gs = 8%nat /\ Forall group gs /\ t = joined $":" gs) \/
  (exists l r, (length l + length r <= 7)%nat /\ Forall group l /\ Forall group r /\
               t = joined $":" l ++ $"::" ++ joined $":" r).
(** what else the pattern accepts: a zone after any row of colons and digits, and an address of
    the older kind at the end, of which no part of three digits begins with a zero *)
Definition zoned (t : cstr) : Prop := exists gs zone,
  t = $"fe80:" ++ concat (map (app $":") gs) ++ $"%" ++ zone /\ (length gs <= 4)%nat /\
  Forall (fun g => made_of hexes g /\ sized 0 4 g) gs /\ made_of (letters ++ digits) zone /\ zone <> [].
Definition octet6 (t : cstr) : Prop := octet t /\ (length t = 3%nat -> head t <> Some "0"%char).
Definition embedding (t : cstr) : Prop :=
  t = $"::" \/ t = $"::ffff:" \/
  (exists z, t = $"::ffff:" ++ z ++ $":" /\ made_of $"0" z /\ sized 1 4 z) \/
  (exists gs, t = joined $":" gs ++ $"::" /\ (1 <= length gs <= 4)%nat /\ Forall group gs).
Definition embedded (t : cstr) : Prop := exists p a b c d,
  t = p ++ joined $"." [a; b; c; d] /\ embedding p /\ octet6 a /\ octet6 b /\ octet6 c /\ octet6 d.
Definition label (t : cstr) : Prop :=
  made_of (letters ++ digits ++ $"-") t /\ sized 1 63 t /\ head t <> Some "-"%char /\ last t <> Some "-"%char.
(** labels and a top level name of letters *)
Definition domain (t : cstr) : Prop := exists ls top,
  t = joined $"." (ls ++ [top]) /\ ls <> [] /\ Forall label ls /\
  made_of letters top /\ (2 <= length top)%nat /\ (length t <= 253)%nat.
Definition scheme (t : cstr) : Prop := exists c r,
  t = c :: r /\ c ∈ letters /\ made_of (letters ++ digits ++ $"+.-") r.
(** two characters at least, the second of which may be a blank *)
Definition after_scheme (t : cstr) : Prop := exists c d r,
  t = c :: d :: r /\ c ∉ blanks ++ $"/$.?#" /\ d <> "010"%char /\ free_of blanks r.
Definition url (t : cstr) : Prop := exists a b, t = a ++ $"://" ++ b /\ scheme a /\ after_scheme b.
Definition http_url (t : cstr) : Prop := exists a b, t = a ++ $"://" ++ b /\ (a = $"http" \/ a = $"https") /\ after_scheme b.

(** ** Mail addresses (regex.h 142-151) *)
Definition email (t : cstr) : Prop := exists l d top,
  t = l ++ $"@" ++ d ++ $"." ++ top /\ made_of (letters ++ digits ++ $"._%+-") l /\ l <> [] /\
  made_of (letters ++ digits ++ $".-") d /\ d <> [] /\ made_of letters top /\ (2 <= length top)%nat.
Definition strict_email (t : cstr) : Prop := exists l ls,
  t = l ++ $"@" ++ joined $"." ls /\
  made_of (letters ++ digits ++ $".!#$%&'*+/=?^_`{|}~-") l /\ l <> [] /\ ls <> [] /\ Forall label ls.

(** ** Dates and times (regex.h 157-166) *)
Definition field (n : nat) (lo hi : Z) (t : cstr) : Prop := made_of digits t /\ length t = n /\ lo <= number t <= hi.
Definition date (t : cstr) : Prop := exists y m d,
  t = joined $"-" [y; m; d] /\ field 4 0 9999 y /\ field 2 1 12 m /\ field 2 1 31 d.
Definition moment (t : cstr) : Prop := exists d h m s,
  t = d ++ $"T" ++ joined $":" [h; m; s] /\ date d /\ field 2 0 23 h /\ field 2 0 59 m /\ field 2 0 59 s.

(** ** Names and secrets (regex.h 172-182) *)
Definition user_name (t : cstr) : Prop := made_of (letters ++ digits ++ $"_-") t /\ sized 3 20 t.
(** letters and digits only, both present *)
Definition password (t : cstr) : Prop :=
  made_of (letters ++ digits) t /\ (8 <= length t)%nat /\ Exists (.∈ letters) t /\ Exists (.∈ digits) t.
(** RFC 4122 text form, version 4, its variant *)
Definition uuid4 (t : cstr) : Prop := exists a b c d e,
  t = joined $"-" [a; b; c; d; e] /\ Forall (made_of hexes) [a; b; c; d; e] /\
  length a = 8%nat /\ length b = 4%nat /\ length c = 4%nat /\ length d = 4%nat /\ length e = 12%nat /\
  head c = Some "4"%char /\ (exists v, head d = Some v /\ v ∈ $"89abAB").

(** ** Files and versions (regex.h 188-204) *)
Definition unix_path (t : cstr) : Prop := head t = Some "/"%char /\ free_of $" " t.
Definition file_name (t : cstr) : Prop := exists n e,
  t = n ++ $"." ++ e /\ made_of (letters ++ digits ++ $"_,-" ++ blanks) n /\ n <> [] /\ made_of letters e /\ sized 1 5 e.
(** semver.org 2.0.0 *)
Definition identifier (t : cstr) : Prop := made_of (letters ++ digits ++ $"-") t /\ t <> [].
Definition pre_release (t : cstr) : Prop := identifier t /\ (made_of digits t -> plain_number t).
Definition marked (mark : cstr) (l : list cstr) : cstr := match l with [] => [] | _ => mark ++ joined $"." l end.
Definition semver (t : cstr) : Prop := exists a b c pre build,
  t = joined $"." [a; b; c] ++ marked $"-" pre ++ marked $"+" build /\
  plain_number a /\ plain_number b /\ plain_number c /\ Forall pre_release pre /\ Forall identifier build.

(** ** What the comments of regex.h and the standards they name say beyond that *)
Definition days (y m : Z) : Z :=
  if m =? 2 then if (y mod 4 =? 0) && (negb (y mod 100 =? 0) || (y mod 400 =? 0)) then 29 else 28
  else if existsb (Z.eqb m) [4; 6; 9; 11] then 30 else 31.
(** a day of the calendar *)
Definition real_date (t : cstr) : Prop := exists y m d,
  t = joined $"-" [y; m; d] /\ field 4 0 9999 y /\ field 2 1 12 m /\ field 2 1 (days (number y) (number m)) d.
(** "8+ chars, at least one letter and one number" *)
Definition documented_password (t : cstr) : Prop :=
  (8 <= length t)%nat /\ Exists (.∈ letters) t /\ Exists (.∈ digits) t.
(** RFC 4291, 2.2, form 3: six groups, some of which may be left out, and an address of the older kind *)
Definition ipv6_with_ipv4 (t : cstr) : Prop := exists gs q,
  t = joined $":" gs ++ $":" ++ q /\ length gs = 6%nat /\ Forall group gs /\ ipv4 q.
