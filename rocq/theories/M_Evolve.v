(** Model of the genetic algorithm: nenupy/schedule/geneticalgo.py, class
    [GeneticAlgorithm].
    Random draws, the functions given to the class and the sort are arguments,
    collected in a record [world].  The checks made on these functions by the
    setters (85-180), the log messages and the plot are not modelled. *)
From Coq Require Import List Arith ZArith QArith Bool.
From Verif Require Import Base M_Sched.
Import ListNotations.
Open Scope nat_scope.

Definition genome := list Z.

(** ** Crossovers *)

Inductive crossing := SPCO | TPCO | UNCO | CrossOther.

(** [child = p.copy(); child[where] = q[where]]. *)
Definition take_from (where_ : nat -> bool) (p q : genome) : genome :=
  imap (fun i x => if where_ i then nth i q 0%Z else x) p.

(** Lines 469-522.  [cut] are the integers drawn: [cut 0] in [1, size) for
    SPCO, [cut 0] and [cut 1] in [0, size) for TPCO, all of them in {0, 1} for
    UNCO.  The draw raises when its range is empty. *)
Definition cross (m : crossing) (cut : nat -> nat) (p q : genome) : res (genome * genome) :=
  let swap f := Ok (take_from f p q, take_from f q p) in
  if length p =? 1 then Ok (p, q)
  else match m with
  | SPCO => if length p =? 0 then Err EValueError else swap (fun i => cut 0 <=? i)
  | TPCO =>
      if length p =? 0 then Err EValueError
      else swap (fun i => (Nat.min (cut 0) (cut 1) <=? i) && (i <? Nat.max (cut 0) (cut 1)))
  | UNCO => swap (fun i => negb (cut i =? 0))
  | CrossOther => Err EValueError
  end.

(** ** Selections *)

Inductive selection := FPS | TNS | RKS | SelOther.

(** [np.argmax]: the first position of the maximum. *)
Fixpoint argmax_from (i : nat) (best : nat) (v : Q) (l : list Q) : nat :=
  match l with
  | [] => best
  | x :: t => if Qltb v x then argmax_from (S i) i x t else argmax_from (S i) best v t
  end.
Definition argmax (l : list Q) : nat :=
  match l with [] => 0 | x :: t => argmax_from 1 0 x t end.

(** Line 433: number of contestants. *)
Definition contestants (n : nat) : nat := Nat.max 2 (Z.to_nat (cdiv (Z.of_nat n) 10)).

(** Lines 437-444: one tournament between the positions drawn. *)
Definition tournament (scores : list Q) (drawn : list nat) : nat :=
  nth (argmax (map (fun i => nth i scores 0%Q) drawn)) drawn 0.

(** Lines 416-419: the scores used as probabilities; they are written in place. *)
Definition nonzero (l : list Q) : nat := length (filter (fun x => negb (Qeq_bool x 0)) l).
Definition fps_scores (scores : list Q) : list Q :=
  if nonzero scores <? 2 then map (fun _ => 1%Q) scores else scores.

(** Line 452: [np.argsort(scores) + 1]; the sort is an argument. *)
Definition ranks (sort : list Q -> list nat) (scores : list Q) : list nat := map S (sort scores).

(** Lines 405-465: the positions of the two parents, and the scores as left by
    the call.  [draw] holds the random positions: the two lists of
    contestants for TNS, the two parents otherwise. *)
Record draw := mkDraw { d_first : list nat; d_second : list nat; d_pair : nat * nat }.
Definition select (m : selection) (scores : list Q) (d : draw) : list Q * res (nat * nat) :=
  match m with
  | FPS =>
      let s := fps_scores scores in
      (s, if existsb (fun x => Qltb x 0) s then Err EValueError else Ok (d_pair d))
  | TNS => (scores, Ok (tournament scores (d_first d), tournament scores (d_second d)))
  | RKS => (scores, Ok (d_pair d))
  | SelOther => (scores, Err EValueError)
  end.

(** ** Evolution *)

(** What the class is given and draws; [t] is the number of the generation
    in the call.  The function [populate] is called with a size. *)
Record world := mkWorld {
  w_populate : nat -> nat -> list genome;
  w_fitness : list genome -> list Q;
  w_sort : list Q -> list nat;
  w_draw : nat -> nat -> draw;
  w_cut : nat -> nat -> nat -> nat;
  w_mutate : nat -> nat -> bool -> genome -> genome }.

(** Lines 43-55: the attributes. *)
Record ga := mkGa {
  ga_best : Q; ga_genome : option genome; ga_gen : Z;
  ga_scores : list Q; ga_children : list (list Q) }.
Definition new_ga : ga := mkGa 0 None 0 [] [].

(** The arguments of [evolve], and the size of the population. *)
Record conf := mkConf {
  c_size : nat; c_threshold : Q; c_max : Z; c_stagnate : Z; c_random : Z;
  c_select : selection; c_cross : crossing }.

(** Lines 277-299: the children of pairs [i], [i+1], ... *)
Fixpoint breed (c : conf) (w : world) (t : nat) (pop : list genome) (scores : list Q) (i n : nat)
  : res (list genome) :=
  match n with
  | 0 => Ok []
  | S m =>
      match select (c_select c) scores (w_draw w t i) with
      | (_, Err e) => Err e
      | (scores', Ok (a, b)) =>
          bind (cross (c_cross c) (w_cut w t i) (nth a pop []) (nth b pop [])) (fun ch =>
          bind (breed c w t pop scores' (S i) m) (fun l =>
            Ok (w_mutate w t i true (fst ch) :: w_mutate w t i false (snd ch) :: l)))
      end
  end.

(** Lines 260-305: the next generation.  The rows that are not written are
    zeros. *)
Definition next_generation (c : conf) (w : world) (t : nat) (pop : list genome) (scores : list Q)
  : res (list genome) :=
  let order := rev (w_sort w scores) in
  let pop' := map (fun i => nth i pop []) order in
  let scores' := map (fun i => nth i scores 0%Q) order in
  bind (breed c w t pop' scores' 0 (c_size c / 2 - 1)) (fun l =>
    let rows := firstn 2 pop' ++ l in
    let rows := rows ++ repeat (repeat 0%Z (length (nth 0 pop []))) (c_size c - length rows) in
    Ok (if (0 <? c_random c)%Z
        then firstn (c_size c - Z.to_nat (c_random c)) rows ++ w_populate w (S t) (Z.to_nat (c_random c))
        else rows)).

(** Lines 228-329: the loop, run at most [fuel = generation_max - generation]
    times. *)
Fixpoint loop (fuel : nat) (c : conf) (w : world) (t : nat) (nstag : Z) (pop : list genome) (g : ga)
  : ga * option err :=
  match fuel with
  | 0 => (mkGa (ga_best g) (ga_genome g) (ga_gen g - 1) (ga_scores g) (ga_children g), None)
  | S f =>
      let sc := w_fitness w pop in
      let k := argmax sc in
      let s := nth k sc 0%Q in
      let better := Qltb (ga_best g) s in
      let g1 := mkGa (if better then s else ga_best g)
                     (if better then nth_error pop k else ga_genome g)
                     (ga_gen g) (ga_scores g ++ [s]) (ga_children g ++ [sc]) in
      let nstag1 := if better then 0%Z else nstag in
      if Qle_bool (c_threshold c) s then (g1, None)
      else if (nstag1 =? c_stagnate c)%Z && negb (Qeq_bool (ga_best g1) 0) then (g1, None)
      else
        match next_generation c w t pop sc with
        | Err e => (g1, Some e)
        | Ok pop' =>
            loop f c w (S t) (nstag1 + 1) pop'
                 (mkGa (ga_best g1) (ga_genome g1) (ga_gen g1 + 1) (ga_scores g1) (ga_children g1))
        end
  end.

(** Lines 193-331, [evolve], for integer [generation_max],
    [max_stagnating_generations] and [random_individuals]. *)
Definition evolve (c : conf) (w : world) (g : ga) : ga * option err :=
  if Qltb 1 (c_threshold c) then (g, Some EValueError)
  else if (Z.of_nat (c_size c) <? c_random c)%Z then (g, Some EValueError)
  else
    let pop := w_populate w 0 (c_size c) in
    loop (Z.to_nat (c_max c - ga_gen g)) c w 0 0 pop
         (mkGa (ga_best g) (nth_error pop 0) (ga_gen g) (ga_scores g) (ga_children g)).

(** Lines 59-72: the size of the population, an integer. *)
Definition set_size (n : Z) : res nat := if (n <? 2)%Z then Err EValueError else Ok (Z.to_nat n).
