(** Networks, their weights, and files that hold them. *)
From Coq Require Import String List.
From Verif Require Import Base Smx_Model Mf_Model Ww_Model.
Import ListNotations.

Definition idx (l : lay) : nat := match l with LNone _ i | LFC _ i _ _ _ _ | LPack _ i _ | LTile _ i _ _ => i end.
Fixpoint idxs (ls : lays) : list nat := match ls with lnil => [] | lcons l ls' => idx l :: idxs ls' end.

(** A weight matrix for [nc] neurons and [inc] incoming ones: no emulated biases, samples in rows *)
Definition weights_for (nc inc : nat) (w : smx Z) : Prop :=
  s_rows w = nc /\ s_cols w = (inc + 1)%nat /\ s_bias w = false /\ s_bir w = false /\
  exists d, s_data w = Some d /\ length d = (nc * (inc + 1))%nat.

(** An initialised network: all weights are there; neighbours have different indices *)
Fixpoint initialised (l : lay) : Prop :=
  match l with
  | LNone _ _ => True
  | LFC _ _ nc inc w _ => (0 < nc)%nat /\ weights_for nc inc w
  | LPack _ _ ls => NoDup (idxs ls) /\ initialiseds ls
  | LTile _ _ _ l' => initialised l'
  end
with initialiseds (ls : lays) : Prop :=
  match ls with lnil => True | lcons l ls' => initialised l /\ initialiseds ls' end.

(** Networks of the same layers *)
Fixpoint arch (l m : lay) : Prop :=
  match l, m with
  | LNone c i, LNone c' i' => c = c' /\ i = i'
  | LFC c i nc inc _ _, LFC c' i' nc' inc' _ _ => c = c' /\ i = i' /\ nc = nc' /\ inc = inc'
  | LPack c i ls, LPack c' i' ms => c = c' /\ i = i' /\ archs ls ms
  | LTile c i k l', LTile c' i' k' m' => c = c' /\ i = i' /\ arch l' m'
  | _, _ => False
  end
with archs (ls ms : lays) : Prop :=
  match ls, ms with
  | lnil, lnil => True
  | lcons l ls', lcons m ms' => arch l m /\ archs ls' ms'
  | _, _ => False
  end.
(** The layers of [m] have the weights of those of [l]; they are in use; tile counts agree *)
Fixpoint same_weights (l m : lay) : Prop :=
  match l, m with
  | LNone _ _, LNone _ _ => True
  | LFC _ _ _ _ w _, LFC _ _ nc inc w' ini => weights_for nc inc w' /\ s_data w' = s_data w /\ ini = true
  | LPack _ _ ls, LPack _ _ ms => same_weightss ls ms
  | LTile _ _ k l', LTile _ _ k' m' => k = k' /\ same_weights l' m'
  | _, _ => False
  end
with same_weightss (ls ms : lays) : Prop :=
  match ls, ms with
  | lnil, lnil => True
  | lcons l ls', lcons m ms' => same_weights l m /\ same_weightss ls' ms'
  | _, _ => False
  end.

(** Files as Matlab's library makes them: an array of r rows and c columns has r*c elements *)
Inductive array_ok : mx -> Prop :=
| num_ok k r c d : length d = (r * c)%nat -> array_ok (Num k r c d)
| str_ok fs : (forall n v, lookup n fs = Some v -> array_ok v) -> array_ok (Str fs)
| arr_ok r c : array_ok (StrArr r c)
| other_ok : array_ok Other.
Definition file_ok (f : fields) : Prop := forall n v, lookup n f = Some v -> array_ok v.

(** Every layer has the weights it has in the file, found along the names of the layers; those
    stored in the type the network uses unchanged; tile counts as in the file *)
Fixpoint from_file (rk : cls) (l : lay) (f : fields) : Prop :=
  match l with
  | LNone _ _ => True
  | LFC _ _ nc inc w ini => ini = true /\ weights_for nc inc w /\
      exists k d, lookup "m_weights" f = Some (Num k nc (inc + 1) d) /\ (k = rk -> s_data w = Some d)
  | LPack _ _ ls => from_files rk ls f
  | LTile _ _ k l' => lookup "m_tiles_count" f = Some (Num (Int true 32) 1 1 [k]) /\
      exists g, lookup (name l') f = Some (Str g) /\ from_file rk l' g
  end
with from_files (rk : cls) (ls : lays) (f : fields) : Prop :=
  match ls with
  | lnil => True
  | lcons l ls' => (exists g, lookup (name l) f = Some (Str g) /\ from_file rk l g) /\ from_files rk ls' f
  end.

(** Every layer has the weights it had, or got a suitable matrix which is in use now *)
Fixpoint kept (l m : lay) : Prop :=
  match l, m with
  | LNone _ _, LNone _ _ => True
  | LFC _ _ _ _ w ini, LFC _ _ nc inc w' ini' => (w' = w /\ ini' = ini) \/ (weights_for nc inc w' /\ ini' = true)
  | LPack _ _ ls, LPack _ _ ms => kepts ls ms
  | LTile _ _ _ l', LTile _ _ _ m' => kept l' m'
  | _, _ => False
  end
with kepts (ls ms : lays) : Prop :=
  match ls, ms with
  | lnil, lnil => True
  | lcons l ls', lcons m ms' => kept l m /\ kepts ls' ms'
  | _, _ => False
  end.
