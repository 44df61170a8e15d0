(** What URLs mean. *)
From Verif Require Import Base.

(** ** application/x-www-form-urlencoded *)
(** The value of a hexadecimal digit, in either case (RFC 3986, 2.1). *)
Inductive hex : Z -> Z -> Prop :=
| H_dec c : 48 <= c <= 57 -> hex c (c - 48)
| H_upper c : 65 <= c <= 70 -> hex c (c - 55)
| H_lower c : 97 <= c <= 102 -> hex c (c - 87).
(** [s] stands for [t]. *)
Inductive stands_for : list Z -> list Z -> Prop :=
| F_end : stands_for [] []
| F_space s t : stands_for s t -> stands_for (43 :: s) (32 :: t)
| F_plain c s t : c <> 43 -> c <> 37 -> stands_for s t -> stands_for (c :: s) (c :: t)
| F_hex a b x y s t : hex a x -> hex b y -> stands_for s t -> stands_for (37 :: a :: b :: s) (x * 16 + y :: t).
(** Characters that may be in a query and separate nothing there. *)
Definition safe (c : Z) : Prop :=
  97 <= c <= 122 \/ 65 <= c <= 90 \/ 48 <= c <= 57 \/ In c [43; 37; 45; 95; 46; 42].

(** ** Resolution of references (RFC 3986, 5.2) *)
Definition starts (p s : list Z) : bool := if list_eq_dec Z.eq_dec (firstn (length p) s) p then true else false.
Definition same (p s : list Z) : bool := if list_eq_dec Z.eq_dec p s then true else false.
(** What is before the next slash, not counting one at the start, and what is from it on. *)
Fixpoint segment (s : list Z) : list Z * list Z :=
  match s with
  | [] => ([], [])
  | c :: s' => if c =? 47 then ([], s) else let (a, b) := segment s' in (c :: a, b)
  end.
Definition first_segment (s : list Z) : list Z * list Z :=
  match s with 47 :: s => let (a, b) := segment s in (47 :: a, b) | _ => segment s end.
(** The output without its last segment and the slash before it, if any. *)
Fixpoint drop_to_slash (rev_s : list Z) : list Z :=
  match rev_s with [] => [] | c :: r => if c =? 47 then r else drop_to_slash r end.
Definition drop_segment (out : list Z) : list Z := rev (drop_to_slash (rev out)).
(** 5.2.4, remove_dot_segments, step by step: [inp] and [out] are its buffers. None is never answered if the
    fuel is greater than the length of the input. *)
Fixpoint remove_dots (fuel : nat) (inp out : list Z) : option (list Z) :=
  match fuel with
  | O => None
  | S fuel =>
      match inp with
      | [] => Some out
      | _ =>
          if starts [46; 46; 47] inp then remove_dots fuel (skipn 3 inp) out                      (* A *)
          else if starts [46; 47] inp then remove_dots fuel (skipn 2 inp) out
          else if starts [47; 46; 47] inp then remove_dots fuel (skipn 2 inp) out                 (* B *)
          else if same [47; 46] inp then remove_dots fuel [47] out
          else if starts [47; 46; 46; 47] inp then remove_dots fuel (skipn 3 inp) (drop_segment out) (* C *)
          else if same [47; 46; 46] inp then remove_dots fuel [47] (drop_segment out)
          else if same [46] inp || same [46; 46] inp then remove_dots fuel [] out                  (* D *)
          else let (a, r) := first_segment inp in remove_dots fuel r (out ++ a)                    (* E *)
      end
  end.
Definition without_dots (p : list Z) : option (list Z) := remove_dots (S (length p)) p [].
(** 5.2.3, for a base whose path starts with a slash: all but the last segment of the base. *)
Definition merge (b r : list Z) : list Z := rev ((fix keep l := match l with [] => [] | c :: l' => if c =? 47 then l else keep l' end) (rev b)) ++ r.
(** 5.2.2, the path of the target for a reference that is only a path, not empty. *)
Definition target_path (b r : list Z) : option (list Z) :=
  match r with 47 :: _ => without_dots r | _ => without_dots (merge b r) end.
(** A path without empty segments inside, whose last segment is no dots. *)
Definition last_segment (p : list Z) : list Z := rev (fst (segment (rev p))).
Definition tidy (p : list Z) : Prop :=
  (forall a b, p <> a ++ 47 :: 47 :: b) /\ last_segment p <> [46] /\ last_segment p <> [46; 46].

(** ** Parts *)
Definition free (cs s : list Z) : Prop := Forall (fun c => ~ In c cs) s.
(** What [p] says of a part that may be absent. *)
Definition if_any (p : list Z -> Prop) (o : option (list Z)) : Prop := match o with Some x => p x | None => True end.

(** ** Forms *)
(** The values of a name, in order. *)
Definition values (form : list (list Z * list Z)) (k : list Z) : list (list Z) :=
  map snd (filter (fun e => if list_eq_dec Z.eq_dec (fst e) k then true else false) form).
(** [q] is the text of a form: name=value&...; [nm] is how names are written, values stand for themselves. *)
Inductive form_text (nm : list Z -> list Z -> Prop) : list Z -> list (list Z * list Z) -> Prop :=
| T_end : form_text nm [] []
| T_last k n e v : free [38; 61] k -> nm k n -> free [38] e -> stands_for e v -> form_text nm (k ++ 61 :: e) [(n, v)]
| T_field k n e v q f : free [38; 61] k -> nm k n -> free [38] e -> stands_for e v -> form_text nm q f ->
    form_text nm (k ++ 61 :: e ++ 38 :: q) ((n, v) :: f).
(** Escapes use upper-case letters only. *)
Definition upper_escapes (s : list Z) : Prop := forall p a b r, s = p ++ 37 :: a :: b :: r -> ~ 97 <= a <= 102 /\ ~ 97 <= b <= 102.
