(** Names of files: kernel/FilePath.st, as on systems where Directory pathSeparator is the slash (47). Names are
    lists of character codes. *)
From Verif Require Import Base SeqOps Text.

Definition slash := 47.
Definition dot := 46.
(** findLast: (kernel/SeqCollect.st:926-938), over the characters from the last to the first; [i] is the index
    of the first of them. *)
Fixpoint find_last (p : Z -> bool) (rev_s : list Z) (i : Z) : Z :=
  match rev_s with
  | [] => 0
  | c :: r => if p c then i else find_last p r (i - 1)
  end.
Definition last_slash (s : list Z) : Z := find_last (fun c => c =? slash) (rev s) (size s).
(** findLast: with the block of extensionFor: and stripExtensionFrom:, which returns from the method at a slash
    (kernel/FilePath.st:80-83, 101-104). *)
Fixpoint find_dot (rev_s : list Z) (i : Z) : option Z :=
  match rev_s with
  | [] => Some 0
  | c :: r => if c =? slash then None else if c =? dot then Some i else find_dot r (i - 1)
  end.
(** The index where the extension starts, or none (kernel/FilePath.st:76-87, 97-108). *)
Definition extension_index (s : list Z) : outcome (option Z) :=
  match s with
  | [] => Ok None
  | _ =>
      match find_dot (rev s) (size s) with
      | None => Ok None
      | Some i =>
          if i <=? 1 then Ok None
          else olet c := at_ s (i - 1) in Ok (if c =? slash then None else Some i)
      end
  end.
(** extensionFor: (kernel/FilePath.st:70-89). *)
Definition extension_for (s : list Z) : outcome (list Z) :=
  olet i := extension_index s in
  match i with None => Ok [] | Some i => copy_from_to 0 true s i (size s) end.
(** stripExtensionFrom: (kernel/FilePath.st:91-110). *)
Definition strip_extension (s : list Z) : outcome (list Z) :=
  olet i := extension_index s in
  match i with None => Ok s | Some i => copy_from_to 0 true s 1 (i - 1) end.
(** stripPathFrom: (kernel/FilePath.st:112-124). *)
Definition strip_path (s : list Z) : outcome (list Z) :=
  match s with [] => Ok [] | _ => copy_from_to 0 true s (last_slash s + 1) (size s) end.
(** pathFor: (kernel/FilePath.st:126-150). *)
Definition path_for (s : list Z) : outcome (list Z) :=
  let i := last_slash s in
  if i =? 0 then Ok []
  else if i =? 1 then Ok [slash]
  else copy_from_to 0 true s 1 (i - 1).
(** stripFileNameFor: (kernel/FilePath.st:152-166). *)
Definition strip_file_name (s : list Z) : outcome (list Z) :=
  let i := last_slash s in
  if i =? 0 then Ok [dot; slash]
  else if i =? 1 then Ok [slash]
  else copy_from_to 0 true s 1 i.
(** append:to: (kernel/FilePath.st:41-68). *)
Definition append_to (fname dir : list Z) : outcome (list Z) :=
  match dir with
  | [] => Ok fname
  | _ =>
      olet c := at_ fname 1 in
      if c =? slash then Ok fname
      else
        olet d := at_ dir (size dir) in
        Ok (if d =? slash then dir ++ fname else dir ++ [slash] ++ fname)
  end.

(** isAbsolute: (kernel/FilePath.st:168-176). *)
Definition is_absolute (s : list Z) : outcome bool := olet c := at_ s 1 in Ok (c =? slash).
(** One step of the loop of fullNameFor: over the components (kernel/FilePath.st:196-202). *)
Definition step (path : list (list Z)) (each : list Z) : list (list Z) :=
  if list_eq_dec Z.eq_dec each [dot] then path
  else if list_eq_dec Z.eq_dec each [dot; dot] then removelast path
  else path ++ [each].
(** fullNameFor: (kernel/FilePath.st:178-222); [cwd] is what Directory workingName answers. *)
Definition full_name (cwd s : list Z) : outcome (list Z) :=
  olet a := is_absolute s in
  olet path := (if a then Ok [] else sub_strings (fun c => c =? slash) cwd) in
  olet ws := sub_strings (fun c => c =? slash) s in
  let path := fold_left step ws path in
  match path with
  | [] => Ok [slash]
  | _ => Ok (fold_left (fun old each => old ++ [slash] ++ each) path [])
  end.

(** The loop of computePathFrom:to: (kernel/FilePath.st:268-271): what is left of both. *)
Fixpoint drop_common (src dest : list (list Z)) {struct src} : list (list Z) * list (list Z) :=
  match src with
  | [] => (src, dest)
  | a :: src' =>
      match dest with
      | [] | [_] => (src, dest)
      | b :: dest' => if list_eq_dec Z.eq_dec a b then drop_common src' dest' else (src, dest)
      end
  end.
(** fold: with the separator between (kernel/FilePath.st:275). *)
Definition joined_by_slash (l : list (list Z)) : outcome (list Z) :=
  match l with
  | [] => Err
  | x :: l => Ok (fold_left (fun a b => a ++ [slash] ++ b) l x)
  end.
(** computePathFrom:to: (kernel/FilePath.st:232-276), the arguments being full names. *)
Definition compute_path (src dest : list Z) : outcome (list Z) :=
  olet src := sub_strings (fun c => c =? slash) src in
  olet dest := sub_strings (fun c => c =? slash) dest in
  match src with
  | [] => Err                                        (* removeLast of an empty collection *)
  | _ =>
      let src := removelast src in
      let dest := match dest with [] => [[]] | _ => dest end in
      let common := match src, dest with
                    | [], _ => true
                    | a :: _, b :: _ => if list_eq_dec Z.eq_dec a b then true else false
                    | _, [] => false
                    end in
      if common
      then let (src, dest) := drop_common src dest in
           joined_by_slash (map (fun _ => [dot; dot]) src ++ dest)
      else joined_by_slash ([] :: dest)
  end.
(** pathFrom:to: (kernel/FilePath.st:224-230). *)
Definition path_from_to (cwd src dest : list Z) : outcome (list Z) :=
  olet src := full_name cwd src in
  olet dest := full_name cwd dest in
  compute_path src dest.
