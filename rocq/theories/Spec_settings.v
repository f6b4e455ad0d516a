(** Which saved results depend on which settings, and the histories in which no
    saved result depends on a setting that is changed. *)
From Coq Require Import String QArith Qcanon ZArith List Bool.
From Verif Require Import Num M_state Spec_state.
Import ListNotations.

(** The settings with a public setter, apart from the working directory. *)
Inductive setting :=
| SAvg | SBoot | SEAxis | SCollapse | SMove | SMembers | SClip | STrunc | SBins | SRange.

(** Does a call of the metric store, or load, a result that depends on the
    setting?  Written down per metric from the user's point of view:
    - averaging axis: the intersections over union and the two diagrams, which
      are saved after averaging over the axes;
    - number of bootstrap samples, collapse function: none (the bootstrap is
      drawn from the saved result; the collapsed ensemble is made once, by the
      constructor);
    - ensemble axis: everything but the errors of the collapsed ensemble;
    - number of members, the axis they are moved to and the clipping value:
      the sampled ensemble, its spread, the rank histogram;
    - truncation: everything that comes from the cumulative distribution, the
      CRPS and the sampled ensemble;
    - integration bins and range: mean, variance and CRPS of the hurdle class. *)
Definition stale (c : cls) (m : meth) (g : setting) : bool :=
  let errors := match m with
                | MDeterm | MError | MSqErr | MAbErr | MIouD _ _ | MCorr => true | _ => false end in
  match g with
  | SAvg => match m with MIouD _ _ | MIouP _ _ | MRel _ _ _ | MSS _ => true | _ => false end
  | SBoot | SCollapse => false
  | SEAxis => match c with CEnsemble => negb errors | _ => false end
  | SMove | SMembers | SClip =>
      match m with MEns | MSpread | MRank => true | _ => false end
  | STrunc =>
      match c with
      | CGamma | CGaussian => negb (errors || match m with MVariance | MSS _ => true | _ => false end)
      | _ => false
      end
  | SBins | SRange =>
      match c with
      | CHurdle => errors || match m with MVariance | MCrps | MSS _ => true | _ => false end
      | _ => false
      end
  end.

(** The setting a call changes, the metric a call computes. *)
Definition changes (o : op) : option setting :=
  match o with
  | OAvg _ => Some SAvg | OBoot _ | ONoBoot => Some SBoot
  | OEAxis _ => Some SEAxis | OCollapse _ => Some SCollapse
  | OMove _ => Some SMove | OMembers _ => Some SMembers | OClip _ => Some SClip
  | OTrunc _ => Some STrunc | OBins _ => Some SBins | ORange _ _ => Some SRange
  | _ => None
  end.
Definition computes (o : op) : option meth :=
  match o with OMetric m _ => Some m | ORmse _ => Some MSqErr | _ => None end.

(** No metric of the history depends, as far as it is saved, on a setting the
    history changes. *)
Definition unaffected (c : cls) (os : list op) : Prop :=
  forall o o' g m, In o os -> In o' os -> changes o = Some g -> computes o' = Some m ->
  stale c m g = false.
