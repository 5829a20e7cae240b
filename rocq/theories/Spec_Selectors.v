(** Vocabulary for selection with mechanisms of other crates. *)
From Verif Require Import Bytes Types World Session Registry Selectors.

(** What a selection answers to the offered names: it is told the names in order until it
    chooses, and asked at the end if it has not. [g'] is the selection afterwards. *)
Inductive answer {R A} : gselection R A -> list bytes -> gselection R A -> option R -> Prop :=
| an_chosen r os : answer (GChosen r) os (GChosen r) (Some r)
| an_hit T s sel dn fin o os s' r :
    sel s o = (s', Some r) -> answer (GNothing T s sel dn fin) (o :: os) (GChosen r) (Some r)
| an_miss T s sel dn fin o os s' g' r :
    sel s o = (s', None) -> answer (GNothing T s' sel dn fin) os g' r ->
    answer (GNothing T s sel dn fin) (o :: os) g' r
| an_end T s sel dn fin s' r :
    dn s = (s', r) -> answer (GNothing T s sel dn fin) [] (GNothing T s' sel dn fin) r.

(** The registered mechanisms that want to run, in the order of the registry, and what starts
    them. *)
Inductive willing {R A} (st : statics R A) (cb : bool) (offered : list bytes)
  : list R -> list (gselection R A * R) -> Prop :=
| wi_nil : willing st cb offered [] []
| wi_off m reg l : st_select st m cb = None -> willing st cb offered reg l ->
    willing st cb offered (m :: reg) l
| wi_no m g g' reg l : st_select st m cb = Some g -> answer g offered g' None ->
    willing st cb offered reg l -> willing st cb offered (m :: reg) l
| wi_yes m g g' r reg l : st_select st m cb = Some g -> answer g offered g' (Some r) ->
    willing st cb offered reg l -> willing st cb offered (m :: reg) ((g', r) :: l).

(** The calls to the preference function: [Greater] keeps what was preferred so far. *)
Inductive asked {R A} (prefer : option R -> R -> comparison)
  : option (gselection R A * R) -> list (gselection R A * R) -> option (gselection R A * R) -> Prop :=
| as_nil a : asked prefer a [] a
| as_keep a g r l a' : prefer (option_map snd a) r = Gt -> asked prefer a l a' ->
    asked prefer a ((g, r) :: l) a'
| as_take a g r l a' : prefer (option_map snd a) r <> Gt -> asked prefer (Some (g, r)) l a' ->
    asked prefer a ((g, r) :: l) a'.

(** What starting a selection gives. *)
Inductive started {R A} (st : statics R A) : gselection R A -> res sasl_err A -> Prop :=
| sd_chosen r i : st_client st r = Some i -> started st (GChosen r) i
| sd_none r : st_client st r = None -> started st (GChosen r) Panic
| sd_own T s sel dn fin : started st (GNothing T s sel dn fin) (fin s).

(** A mechanism that never wants to run when these names are offered. *)
Definition silent {R A} (st : statics R A) (cb : bool) (offered : list bytes) (m : R) : Prop :=
  forall g g' r, st_select st m cb = Some g -> answer g offered g' r -> r = None.

(** The selector's own way to start its mechanism does not fail. *)
Definition can_start {R A} (g : gselection R A) : Prop :=
  match g with
  | GNothing T s sel dn fin => forall t x, fin t <> Err x
  | GChosen _ => True
  end.
