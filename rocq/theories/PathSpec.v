(** What names of files mean. *)
From Verif Require Import Base TextSpec.

(** The directories on the way from the root to where [ws] leads from [d]: a point stays, two points go up, as
    far as there is an up, any other name goes down. *)
Inductive leads : list (list Z) -> list (list Z) -> list (list Z) -> Prop :=
| P_here d : leads d [] d
| P_stay d ws e : leads d ws e -> leads d ([46] :: ws) e
| P_up d x ws e : leads d ws e -> leads (d ++ [x]) ([46; 46] :: ws) e
| P_root ws e : leads [] ws e -> leads [] ([46; 46] :: ws) e
| P_down d w ws e : w <> [46] -> w <> [46; 46] -> leads (d ++ [w]) ws e -> leads d (w :: ws) e.
Definition is_slash (c : Z) : Prop := c = 47.
(** The name [s], used in the directory [d], denotes what is at [e]: a name that starts with a slash starts at
    the root. *)
Definition denotes (d : list (list Z)) (s : list Z) (e : list (list Z)) : Prop :=
  exists ws, words is_slash s ws /\
    match s with [] => False | c :: _ => leads (if c =? 47 then [] else d) ws e end.
(** The one way to write the absolute name of [e]. *)
Definition absolute (e : list (list Z)) : list Z :=
  match e with [] => [47] | _ => flat_map (fun w => 47 :: w) e end.
(** A name without a slash. *)
Definition simple (s : list Z) : Prop := ~ In 47 s.
(** Names of directories: not empty, no slash, neither . nor .. *)
Definition proper (w : list Z) : Prop := w <> [] /\ simple w /\ w <> [46] /\ w <> [46; 46].
(** [e] is the extension of the name made of [b] and [e]: it starts with the last point of the last component,
    which does not start with it. *)
Definition has_extension (b e : list Z) : Prop :=
  exists dir n x, b = dir ++ n /\ n <> [] /\ simple n /\ (dir = [] \/ exists d, dir = d ++ [47]) /\
    e = 46 :: x /\ ~ In 46 x /\ simple x.
