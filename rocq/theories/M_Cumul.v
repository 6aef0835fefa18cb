(** Model of the data volumes of an observation configuration added up over time,
    nenupy/observation/obs_config.py 1728-1769 ([ObsConfig.getCumulativeVolume]).
    Volumes are in bytes, [None] when not finite (M_Config); [unit] is the number of bytes of the
    unit asked; [now] is the start of the objects built without one ([Time.now()], 258-261).
    [np.argsort] is any function that sorts. *)
From Coq Require Import String List Arith ZArith QArith Bool.
From Verif Require Import Base M_Parset M_Config.
Import ListNotations.
Open Scope nat_scope.
Open Scope list_scope.

(** 1582-1592, the keys of [backendClasses]. *)
Definition receiver_key (b : backend) : string :=
  match b with
  | Nickel => "nickel" | Raw => "raw" | Tf => "tf" | Bst => "bst"
  | Fold => "pulsar_fold" | Wave => "pulsar_waveolaf" | Single => "pulsar_single"
  end%string.
Definition receiver_named (name : string) : option backend := find (fun b => String.eqb (receiver_key b) name) backends.
(** [np.cumsum], a value that is not finite stays in the sums that follow. *)
Fixpoint cumsum (acc : option Q) (l : list (option Q)) : list (option Q) :=
  match l with
  | [] => []
  | v :: r => let s := match acc, v with Some a, Some x => Some (a + x)%Q | _, _ => None end in s :: cumsum s r
  end.
Definition pick {A} (d : A) (l : list A) (indices : list nat) : list A := map (fun i => nth i l d) indices.
Section Sorted.
  Variable argsort : list Q -> list nat.
  (** 1758-1769; [Time([])] raises ValueError, no format can be guessed. *)
  Definition cumulative (unit now : Q) (o : list (backend * list receiver)) (name : string) : res (list Q * list (option Q)) :=
    match receiver_named name with
    | None => Err EValueError
    | Some b =>
        let obs_list := receivers o b in
        match obs_list with
        | [] => Err EValueError
        | _ =>
            let times := map (fun r => match receiver_start r with Some t => t | None => now end) obs_list in
            let indices := argsort times in
            let volumes := map (fun r => option_map (fun v => v / unit)%Q (receiver_volume r)) obs_list in
            Ok (pick 0%Q times indices, cumsum (Some 0%Q) (pick None volumes indices))
        end
    end.
End Sorted.
