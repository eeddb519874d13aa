(** * Specification of runs with several compile commands *)
From Verif Require Import Base ParserModel AnnotModel CollectModel GraphModel EmitModel ModuleModel ToolModel ToolSpec.

Definition outcome := option (files * list contents * N).

(** Exit status for two groups of commands: failure if one of them fails; if
    failure is expected, one has to. *)
Definition combined_status (xfail : bool) (c1 c2 : N) : N :=
  if xfail then (if (c1 =? 0)%N || (c2 =? 0)%N then 0 else 1)%N else (if (c1 =? 0)%N && (c2 =? 0)%N then 0 else 1)%N.

(** One run after the other, the second one sees the files left by the first. *)
Definition followed_by (xfail : bool) (first : outcome) (second : files -> outcome) : outcome :=
  match first with
  | None => None
  | Some (fs1, out1, c1) =>
      match second fs1 with
      | None => None
      | Some (fs2, out2, c2) => Some (fs2, out1 ++ out2, combined_status xfail c1 c2)
      end
  end.

(** The last time that an output is given counts. *)
Definition holds_last (fs' : files) (text : str) (outputs : list str) (parts : list (list item)) : Prop :=
  length parts = length outputs /\
  forall l1 p l2, outputs = l1 ++ p :: l2 -> p <> $"-" -> ~ In p l2 -> exists part, nth_error parts (length l1) = Some part /\ fs' p = Some (New text part).
