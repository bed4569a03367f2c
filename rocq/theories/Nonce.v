(** Model of /repo/openid/store/nonce.py.

    The time functions it calls are modelled from CPython 3.11: [time.gmtime] and
    [time.strftime] for the format of line 25, [time.strptime] (Lib/_strptime.py)
    for the same format, [calendar.timegm].  Times are whole seconds. *)
From Verif Require Import Py.

(** Calendar arithmetic of Lib/datetime.py 42-110. *)
Open Scope Z_scope.
Definition is_leap (y : Z) : bool :=
  (y mod 4 =? 0) && (negb (y mod 100 =? 0) || (y mod 400 =? 0)).
Definition days_before_year (y : Z) : Z :=
  let y := y - 1 in y * 365 + y / 4 - y / 100 + y / 400.
Definition DAYS_IN_MONTH : list Z := [31; 28; 31; 30; 31; 30; 31; 31; 30; 31; 30; 31].
Definition DAYS_BEFORE_MONTH : list Z := [0; 31; 59; 90; 120; 151; 181; 212; 243; 273; 304; 334].
Definition month_entry (l : list Z) (m : Z) : Z := nth (Z.to_nat (m - 1)) l 0.
Definition days_in_month (y m : Z) : Z :=
  if (m =? 2) && is_leap y then 29 else month_entry DAYS_IN_MONTH m.
Definition days_before_month (y m : Z) : Z :=
  month_entry DAYS_BEFORE_MONTH m + (if (2 <? m) && is_leap y then 1 else 0).
(** [datetime.date(y, m, d).toordinal()] without the range checks. *)
Definition ymd2ord (y m d : Z) : Z := days_before_year y + days_before_month y m + d.
(** [datetime.date.fromordinal]; also the date part of [gmtime]. *)
Definition ord2ymd (n : Z) : Z * Z * Z :=
  let n := n - 1 in
  let n400 := n / 146097 in let n := n mod 146097 in
  let n100 := n / 36524 in let n := n mod 36524 in
  let n4 := n / 1461 in let n := n mod 1461 in
  let n1 := n / 365 in let n := n mod 365 in
  let year := n400 * 400 + 1 + n100 * 100 + n4 * 4 + n1 in
  if (n1 =? 4) || (n100 =? 4) then (year - 1, 12, 31)
  else
    let leap := (n1 =? 3) && (negb (n4 =? 24) || (n100 =? 3)) in
    let month := (n + 50) / 32 in
    let preceding := month_entry DAYS_BEFORE_MONTH month + (if (2 <? month) && leap then 1 else 0) in
    if n <? preceding
    then let month := month - 1 in
         let preceding := preceding - (month_entry DAYS_IN_MONTH month + (if (month =? 2) && leap then 1 else 0)) in
         (year, month, n - preceding + 1)
    else (year, month, n - preceding + 1).

Record tm := mkTm { tm_year : Z; tm_mon : Z; tm_mday : Z; tm_hour : Z; tm_min : Z; tm_sec : Z }.
Definition EPOCH_ORD : Z := 719163.

(** [time.gmtime(t)]: the six fields used. *)
Definition gmtime (t : Z) : tm :=
  let days := t / 86400 in let s := t mod 86400 in
  let '(y, m, d) := ord2ymd (days + EPOCH_ORD) in
  mkTm y m d (s / 3600) (s mod 3600 / 60) (s mod 60).

(** [calendar.timegm] (Lib/calendar.py). *)
Definition timegm (x : tm) : Z :=
  let days := ymd2ord (tm_year x) (tm_mon x) 1 - EPOCH_ORD + tm_mday x - 1 in
  let hours := days * 24 + tm_hour x in
  let minutes := hours * 60 + tm_min x in
  minutes * 60 + tm_sec x.

(** [time.strftime('%Y-%m-%dT%H:%M:%SZ', t)]. *)
Definition dig (z : Z) : N := (48 + Z.to_N (z mod 10))%N.
Definition two (z : Z) : text := [dig (z / 10); dig z].
Definition year_text (y : Z) : text :=
  if (1000 <=? y) && (y <? 10000) then [dig (y / 1000); dig (y / 100); dig (y / 10); dig y] else str_of_Z y.
Definition strftime (x : tm) : text :=
  year_text (tm_year x) ++ u "-" ++ two (tm_mon x) ++ u "-" ++ two (tm_mday x) ++ u "T" ++
  two (tm_hour x) ++ u ":" ++ two (tm_min x) ++ u ":" ++ two (tm_sec x) ++ u "Z".

Section Strptime.
  (** [\d] and [int] also take the decimal digits outside ASCII; their values. *)
  Variable udigit : N -> option Z.

  (** Character classes with the value of the digit. *)
  Definition cls (lo hi : Z) (c : N) : option Z :=
    let v := Z.of_N c - 48 in if (lo <=? v) && (v <=? hi) then Some v else None.
  Definition anydigit (c : N) : option Z := if (c <? 128)%N then cls 0 9 c else udigit c.
  Definition blank (c : N) : option Z := if (c =? 32)%N then Some 0 else None.

  (** One alternative of a group of the regular expression: the value and the
      rest of the input, if it matches. *)
  Definition one (a : N -> option Z) (s : text) : list (Z * text) :=
    match s with c :: r => match a c with Some v => [(v, r)] | None => [] end | [] => [] end.
  Definition pair (a b : N -> option Z) (s : text) : list (Z * text) :=
    flat_map (fun p => map (fun q => (fst p * 10 + fst q, snd q)) (one b (snd p))) (one a s).
  Definition alt (l : list (text -> list (Z * text))) (s : text) : list (Z * text) := flat_map (fun f => f s) l.
  (** Lib/_strptime.py 186-207: the groups Y, m, d, H, M, S. *)
  Definition re_Y (s : text) : list (Z * text) :=
    flat_map (fun p => map (fun q => (fst p * 100 + fst q, snd q)) (pair anydigit anydigit (snd p))) (pair anydigit anydigit s).
  Definition re_m := alt [pair (cls 1 1) (cls 0 2); pair (cls 0 0) (cls 1 9); one (cls 1 9)].
  Definition re_d := alt [pair (cls 3 3) (cls 0 1); pair (cls 1 2) anydigit; pair (cls 0 0) (cls 1 9); one (cls 1 9); pair blank (cls 1 9)].
  Definition re_H := alt [pair (cls 2 2) (cls 0 3); pair (cls 0 1) anydigit; one anydigit].
  Definition re_M := alt [pair (cls 0 5) anydigit; one anydigit].
  Definition re_S := alt [pair (cls 6 6) (cls 0 1); pair (cls 0 5) anydigit; one anydigit].
  (** A literal, in either case (the expression is compiled with IGNORECASE). *)
  Definition lit (c : N) (s : text) : list text :=
    match s with x :: r => if (lowerc x =? lowerc c)%N then [r] else [] | [] => [] end.

  (** All matches, in the order of backtracking: the fields and the rest. *)
  Definition matches (s : text) : list (tm * text) :=
    flat_map (fun Y => flat_map (fun s =>
    flat_map (fun m => flat_map (fun s =>
    flat_map (fun d => flat_map (fun s =>
    flat_map (fun H => flat_map (fun s =>
    flat_map (fun M => flat_map (fun s =>
    flat_map (fun S => map (fun s => (mkTm (fst Y) (fst m) (fst d) (fst H) (fst M) (fst S), s))
      (lit 90 (snd S))) (re_S s))
      (lit 58 (snd M))) (re_M s))
      (lit 58 (snd H))) (re_H s))
      (lit 84 (snd d))) (re_d s))
      (lit 45 (snd m))) (re_m s))
      (lit 45 (snd Y))) (re_Y s).

  (** [time.strptime(s, time_fmt)]: the first match has to use all of the text, the
      date has to exist (datetime.date raises ValueError otherwise). *)
  Definition strptime (s : text) : res tm :=
    match matches s with
    | [] => Raise ValueError
    | (x, rest) :: _ =>
        if truthy rest then Raise ValueError
        else if (1 <=? tm_year x) && (tm_mday x <=? days_in_month (tm_year x) (tm_mon x)) then Ok x
        else Raise ValueError
    end.

  (** nonce.py 23-26. *)
  Definition SKEW : Z := 18000.
  Definition time_str_len : nat := 20.

  (** nonce.py 29-49, split. *)
  Definition split (nonce_string : text) : res (Z * text) :=
    x <- strptime (firstn time_str_len nonce_string) ;;
    let timestamp := timegm x in
    if timestamp <? 0 then Raise ValueError
    else Ok (timestamp, skipn time_str_len nonce_string).

  (** nonce.py 52-85, checkTimestamp. *)
  Definition checkTimestamp (nonce_string : text) (allowed_skew now : Z) : res bool :=
    match split nonce_string with
    | Raise e => if isValueError e then Ok false else Raise e
    | Ok (stamp, _) => Ok ((now - allowed_skew <=? stamp) && (stamp <=? now + allowed_skew))
    end.
End Strptime.

(** nonce.py 18, 88-98 and 101-119, mkNonce; [salt] is what make_nonce_salt draws. *)
Definition NONCE_CHARS : text := u "abcdefghijklmnopqrstuvwxyzABCDEFGHIJKLMNOPQRSTUVWXYZ0123456789".
Definition mkNonce (when : Z) (salt : text) : text := strftime (gmtime when) ++ salt.
