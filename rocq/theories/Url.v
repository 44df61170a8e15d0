(** URLs: kernel/URL.st. Strings are lists of character codes. *)
From Verif Require Import Base SeqOps Text IntPrint.

(** ** Encoding *)
(** digitValue (kernel/Character.st:255-267): 0-9 and A-Z only, others are an error. *)
Definition digit_value (c : Z) : outcome Z :=
  if (48 <=? c) && (c <=? 57) then Ok (c - 48)
  else if (65 <=? c) && (c <=? 90) then Ok (c - 55)
  else Err.
(** URL class >> decode: (kernel/URL.st:48-65). At the end next answers nil, which has no digitValue; a
    character beyond 255 cannot be stored in the String. *)
Fixpoint decode (s : list Z) : outcome (list Z) :=
  match s with
  | [] => Ok []
  | c :: s =>
      if c =? 43 then olet r := decode s in Ok (32 :: r)
      else if negb (c =? 37) then olet r := decode s in Ok (c :: r)
      else
        match s with
        | d :: e :: s =>
            olet x := digit_value d in
            olet y := digit_value e in
            if x * 16 + y <=? 255 then olet r := decode s in Ok (x * 16 + y :: r) else Err
        | _ => Err
        end
  end.
(** NoPercentEncoding (kernel/URL.st:90-97). *)
Definition no_percent (c : Z) : bool :=
  (97 <=? c) && (c <=? 122) || (65 <=? c) && (c <=? 90) || (48 <=? c) && (c <=? 57) ||
  existsb (Z.eqb c) [32; 45; 95; 46; 42].
(** '0123456789ABCDEF' at: d + 1 (kernel/URL.st:86-87). *)
Definition hex_digit (d : Z) : Z := if d <? 10 then 48 + d else 55 + d.
(** URL class >> encode: (kernel/URL.st:67-88), for characters up to 255. *)
Fixpoint encode (s : list Z) : list Z :=
  match s with
  | [] => []
  | c :: s =>
      (if c =? 32 then [43] else if no_percent c then [c] else [37; hex_digit (c / 16); hex_digit (c mod 16)]) ++ encode s
  end.

(** ** Parsing *)
(** The instance variables (kernel/URL.st:38); nil is None. The flag for POST data is not modelled. *)
Record url := mk_url {
  scheme : option (list Z); username : option (list Z); password : option (list Z);
  host : option (list Z); port : Z; path : option (list Z); query : option (list Z); fragment : option (list Z) }.
(** Reading characters until one satisfies [stop] or nothing is left (kernel/URL.st:220-223, 252-253, 260-261):
    what was copied, the last character read, what is left. *)
Fixpoint scan (stop : Z -> bool) (s : list Z) (ch : option Z) : list Z * option Z * list Z :=
  match s with
  | [] => ([], ch, [])
  | c :: s =>
      if stop c then ([], Some c, s)
      else let '(w, ch, r) := scan stop s (Some c) in (c :: w, ch, r)
  end.
Definition is (c : Z) (o : option Z) : bool := match o with Some d => d =? c | None => false end.
Definition empty (l : list Z) : bool := match l with [] => true | _ => false end.
(** isAlphaNumeric (kernel/Character.st:315-320). *)
Definition alnum (c : Z) : bool :=
  (97 <=? c) && (c <=? 122) || (65 <=? c) && (c <=? 90) || (48 <=? c) && (c <=? 57).
(** The loop that reads host and port, and user and password (kernel/URL.st:251-276). [wr] is whether the
    stream [write] has ever been written to: #reset moves it back but does not make it empty again
    (kernel/PosStream.st:204-209, 248-254), so that #isEmpty answers false from then on. *)
Fixpoint authority (fuel : nat) (rd : list Z) (ch : option Z) (wr : bool) (us pw ho po : option (list Z)) :
    outcome (list Z * option Z * option (list Z) * option (list Z) * option (list Z) * option (list Z)) :=
  match fuel with
  | O => OutOfFuel
  | S fuel =>
      let '(w, ch, rd) := scan (fun c => (c =? 47) || (c =? 58) || (c =? 64)) rd ch in
      let wr := wr || negb (empty w) in
      let ho := if wr then Some w else ho in
      let '(ch, rd, wr, po) :=
        if is 58 ch
        then
          let '(w, ch, rd) := scan (fun c => (c =? 47) || (c =? 64)) rd ch in
          let wr := wr || negb (empty w) in
          (ch, rd, wr, if wr then Some w else po)
        else (ch, rd, wr, po) in
      if is 64 ch
      then
        let (us, ho) := match ho with Some _ => (ho, None) | None => (us, ho) end in
        let (pw, po) := match po with Some _ => (po, None) | None => (pw, po) end in
        authority fuel rd ch wr us pw ho po
      else Ok (rd, ch, us, pw, ho, po)
  end.
(** URL class >> fromURLString: (kernel/URL.st:198-292). *)
Definition from_url_string (fuel : nat) (s : list Z) : outcome url :=
  let '(w, ch, rd) := scan (fun c => negb (alnum c) && negb (c =? 43)) s None in
  let (sc, rd) := if empty w || negb (is 58 ch) then (None, s) else (Some w, rd) in
  match rd with
  | 47 :: 47 :: rd =>
      olet (rd, ch, us, pw, ho, po) := authority fuel rd ch (negb (empty w)) None None None None in
      let po := match po with None => 0 | Some p => as_integer p end in
      let pa := if empty rd then None else Some (match ch with Some c => [c] | None => [] end ++ rd) in
      Ok (mk_url sc us pw ho po pa None None)
  | _ => Ok (mk_url sc None None None 0 (if empty rd then None else Some rd) None None)
  end.
(** The index of the first [c] at or after [i], or [none] (kernel/String.st:243-270). *)
Fixpoint index_char (c : Z) (s : list Z) (i from none : Z) : Z :=
  match s with
  | [] => none
  | d :: s => if (from <=? i) && (d =? c) then i else index_char c s (i + 1) from none
  end.
(** URL class >> fromString: (kernel/URL.st:99-145), the argument being a String. *)
Definition from_string (fuel : nat) (s : list Z) : outcome url :=
  let q := index_char 63 s 1 1 0 in
  let f := index_char 35 s 1 1 0 in
  let limit := if q =? 0 then size s + 1 else q in
  let ql := index_char 35 s 1 (q + 1) (size s + 1) in
  let limit := if f =? 0 then limit else Z.min limit f in
  let fl := index_char 63 s 1 (f + 1) (size s + 1) in
  olet us := copy_from_to 0 true s 1 (limit - 1) in
  olet u := from_url_string fuel us in
  olet qu := (if 0 <? q then olet x := copy_from_to 0 true s (q + 1) (ql - 1) in Ok (Some x) else Ok None) in
  olet fr := (if 0 <? f then olet x := copy_from_to 0 true s (f + 1) (fl - 1) in Ok (Some x) else Ok None) in
  Ok (mk_url (scheme u) (username u) (password u) (host u) (port u) (path u) qu fr).
(** printOn: (kernel/URL.st:759-792). *)
Definition print_url (u : url) : outcome (list Z) :=
  let sc := match scheme u with Some s => s ++ [58] | None => [] end in
  olet ho :=
    match host u with
    | None => Ok []
    | Some h =>
        let us := match username u with
                  | Some n => n ++ match password u with Some p => 58 :: p | None => [] end ++ [64]
                  | None => []
                  end in
        olet po := (if 0 <? port u then olet d := print_string (port u) 10 in Ok (58 :: d) else Ok []) in
        Ok ((match scheme u with Some _ => [47; 47] | None => [] end) ++ us ++ h ++ po)
    end in
  let pa := match path u with Some p => p | None => [47] end in
  let qu := match query u with Some q => 63 :: q | None => [] end in
  let fr := match fragment u with Some f => 35 :: f | None => [] end in
  Ok (sc ++ ho ++ pa ++ qu ++ fr).

(** ** Relative URLs *)
(** [read atEnd] whileFalse: [p := read upTo: $/] (kernel/URL.st:393-394, 406-407): the pieces; [cur] is what has
    been read of the next. *)
Fixpoint pieces (s cur : list Z) : list (list Z) :=
  match s with
  | [] => if empty cur then [] else [cur]
  | c :: s => if c =? 47 then cur :: pieces s [] else pieces s (cur ++ [c])
  end.
(** One piece (kernel/URL.st:395-399, 408-412). *)
Definition put_dir (st : list (list Z)) (p : list Z) : list (list Z) :=
  match p with
  | [] | [46] => st
  | [46; 46] => removelast st
  | _ => st ++ [p]
  end.
Definition ends_with_slash (p : list Z) : bool := match rev p with 47 :: _ => true | _ => false end.
(** constructPath:with: (kernel/URL.st:385-421). *)
Definition construct_path (p1 p2 : list Z) : list Z :=
  let st :=
    match p2 with
    | 47 :: _ => []
    | _ =>
        let st := fold_left put_dir (pieces p1 []) [] in
        if ends_with_slash p1 then st else removelast st
    end in
  let st := fold_left put_dir (pieces p2 []) st in
  match st with
  | [] => [47]
  | _ => flat_map (fun w => 47 :: w) st ++ (if ends_with_slash p2 then [47] else [])
  end.
Definition same_text (a b : option (list Z)) : bool :=
  match a, b with
  | None, None => true
  | Some a, Some b => if list_eq_dec Z.eq_dec a b then true else false
  | _, _ => false
  end.
(** isFileScheme (kernel/URL.st:344-349); the scheme is file. *)
Definition is_file (u : url) : bool :=
  match scheme u with None => true | Some _ => same_text (scheme u) (Some [102; 105; 108; 101]) end.
Definition starts_with_slash (p : list Z) : bool := match p with 47 :: _ => true | _ => false end.
(** construct: (kernel/URL.st:423-476). Strings do not understand asFilename, which the relative path of a
    file URL is sent, unless a package defines it. *)
Definition construct (b r : url) : outcome url :=
  if match scheme r with
     | Some _ => negb (same_text (scheme b) (scheme r)) || match host r with Some _ => true | None => false end
     | None => false
     end
  then Ok r
  else
    olet pa :=
      match path r with
      | None => Ok (path b)
      | Some rp =>
          if is_file b then
            match path b with
            | None => Ok (Some rp)
            | Some bp =>
                if starts_with_slash rp then Ok (Some rp)
                else if starts_with_slash bp then Ok (Some (construct_path bp rp))
                else Err
            end
          else Ok (Some (construct_path (match path b with Some bp => bp | None => [47] end) rp))
      end in
    Ok (mk_url (scheme b) (username b) (password b) (host b) (port b) pa (query r) (fragment r)).

(** ** Form fields *)
(** What decodedFields stores for a name: one value, which may be nil, or a collection of them. *)
Inductive field := One (v : option (list Z)) | Many (vs : list (option (list Z))).
Definition lookup_field (d : list (list Z * field)) (k : list Z) : option field :=
  match find (fun e => if list_eq_dec Z.eq_dec (fst e) k then true else false) d with Some e => Some (snd e) | None => None end.
Definition put_field (d : list (list Z * field)) (k : list Z) (v : field) : list (list Z * field) :=
  (k, v) :: filter (fun e => if list_eq_dec Z.eq_dec (fst e) k then false else true) d.
(** add:to:value: (kernel/URL.st:360-372). nil is no string and does not understand add:. *)
Definition add_field (d : list (list Z * field)) (k : list Z) (v : option (list Z)) : outcome (list (list Z * field)) :=
  match lookup_field d k with
  | None => Ok (put_field d k (One v))
  | Some (One None) => Err
  | Some (One (Some x)) => Ok (put_field d k (Many [Some x; v]))
  | Some (Many l) => Ok (put_field d k (Many (l ++ [v])))
  end.
(** The block of decodedFields (kernel/URL.st:519-534). *)
Definition decode_field (d : list (list Z * field)) (kv : list Z) : outcome (list (list Z * field)) :=
  let i := index_char 61 kv 1 1 (size kv + 1) in
  olet key := copy_from_to 0 true kv 1 (i - 1) in
  olet value := (if i <? size kv
                 then olet v := copy_from_to 0 true kv (i + 1) (size kv) in olet v := decode v in Ok (Some v)
                 else Ok None) in
  add_field d key value.
Fixpoint decode_fields (d : list (list Z * field)) (l : list (list Z)) : outcome (list (list Z * field)) :=
  match l with
  | [] => Ok d
  | kv :: l => olet d := decode_field d kv in decode_fields d l
  end.
(** decodedFields (kernel/URL.st:509-535), the query not being nil. *)
Definition decoded_fields (q : list Z) : outcome (list (list Z * field)) :=
  olet l := sub_strings_of q [38] in decode_fields [] l.

(** ** Comparing *)
(** hash (kernel/URL.st:312-318): computed once and kept; [h] is the hash of strings. Answers the hash and the
    instance variable. *)
Definition hash_of (h : list Z -> Z) (u : url) (cached : option Z) : outcome (Z * option Z) :=
  match cached with
  | Some x => Ok (x, cached)
  | None => olet s := print_url u in olet t := decode s in Ok (h t, Some (h t))
  end.
(** The comparison of schemes and hosts in = (kernel/URL.st:303-306): the same object, or sameAs:
    (kernel/CharArray.st:121-128). nil does not understand sameAs:, and its size is 0. *)
Definition same_name (a b : option (list Z)) : outcome bool :=
  match a, b with
  | None, None => Ok true
  | Some a, Some b => Ok (if list_eq_dec Z.eq_dec (map lower a) (map lower b) then true else false)
  | Some (_ :: _), None => Ok false
  | _, _ => Err
  end.
(** decodedFile (kernel/URL.st:545-551): sends #file, which no class of the kernel defines for URLs. *)
Definition decoded_file (u : url) : outcome (list Z) := Err.
(** decodedFragment (kernel/URL.st:537-543); nil cannot be decoded. *)
Definition decoded_fragment (u : url) : outcome (list Z) := match fragment u with Some f => decode f | None => Err end.
(** = (kernel/URL.st:294-310), the argument being a URL. *)
Definition equals (h : list Z -> Z) (u : url) (cu : option Z) (v : url) (cv : option Z) : outcome bool :=
  olet (hu, _) := hash_of h u cu in
  olet (hv, _) := hash_of h v cv in
  if negb (hu =? hv) then Ok false
  else
    olet s := same_name (scheme u) (scheme v) in
    if negb s then Ok false
    else
      olet t := same_name (host u) (host v) in
      if negb t then Ok false
      else if negb (port u =? port v) then Ok false
      else
        olet a := decoded_file u in
        olet b := decoded_file v in
        if list_eq_dec Z.eq_dec a b
        then
          olet x := decoded_fragment u in
          olet y := decoded_fragment v in
          Ok (if list_eq_dec Z.eq_dec x y then true else false)
        else Ok false.
(** What construct: answers when the receiver has instance variable hash [cached]: the copy keeps it
    (kernel/URL.st:453, 478-484, 494-507). *)
Definition construct_cached (b : url) (cached : option Z) (r : url) (rcached : option Z) : outcome (url * option Z) :=
  olet u := construct b r in
  Ok (u, if match scheme r with
            | Some _ => negb (same_text (scheme b) (scheme r)) || match host r with Some _ => true | None => false end
            | None => false
            end then rcached else cached).
