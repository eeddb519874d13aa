(** * Specification of inlining in the presence of virtual bases *)
From Verif Require Import Base ParserModel AnnotModel CollectModel GraphModel InlineModel InlineSpec.

(** No class is a direct base twice. *)
Definition distinct_bases (h : hierarchy) : Prop := forall r, NoDup (h_direct h r).

(** Where two paths from [r] part, the first one follows a base declared earlier. *)
Inductive earlier (h : hierarchy) : nat -> list bspec -> list bspec -> Prop :=
| earlier_here r a s b s' c p q : h_direct h r = a ++ s :: b ++ s' :: c -> earlier h r (s :: p) (s' :: q)
| earlier_there r s p q : earlier h (sp_base s) p q -> earlier h r (s :: p) (s :: q).

(** A path that continues beyond a class inherited from virtually has to arrive
    there on the first path that inherits from it virtually. *)
Definition followed (h : hierarchy) (r : nat) (p : list bspec) : Prop :=
  forall p1 s p2, p = p1 ++ s :: p2 -> p2 <> [] -> sp_virtual s = true ->
    forall q s', derives h r (q ++ [s']) (sp_base s) -> sp_virtual s' = true -> ~ earlier h r (q ++ [s']) (p1 ++ [s]).
