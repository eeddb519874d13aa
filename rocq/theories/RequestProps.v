(** * Properties of requests for further includes *)
From Verif Require Import Base ParserModel StringModel StringSpec AnnotModel AnnotSpec CollectModel CollectSpec GraphModel GraphSpec GraphProps
  OrderModel OrderProps InlineModel EmitModel EmitProps ModuleModel ModuleSpec ModuleProps ToolModel ToolSpec ToolProofs ToolProps RequestSpec RequestProofs.

(** C113: a further [#pragma genpybind include <h>] adds one include directive to
    the outputs and changes nothing else, in particular not the exit status.
    Files may also be those of before the run (outputs that were not written). *)
Theorem requested_headers_are_added_only : forall env outputs keep xfail name j ps p h qs fs fs' out code,
  j_pragmas j = ps ++ qs -> pg_accepted p = true -> include_pragma p h ->
  main env outputs keep xfail name [j] fs = Some (fs', out, code) ->
  exists before after fs'', main env outputs keep xfail name [requesting j ps p qs] fs = Some (fs'', map (included (before ++ [ascii_of_N 10]) after h) out, code) /\
    (forall q, fs'' q = option_map (included (before ++ [ascii_of_N 10]) after h) (fs' q) \/ (fs'' q = fs' q /\ fs' q = fs q)) /\
    (code = 0%N -> xfail = false -> forall q, In q outputs -> q <> $"-" ->
       exists items, fs' q = Some (New ((before ++ [ascii_of_N 10]) ++ after) items) /\ fs'' q = Some (New ((before ++ [ascii_of_N 10]) ++ ($"#include " ++ h ++ [ascii_of_N 10]) ++ after) items)) /\
    (code = 0%N -> xfail = false -> forall c, In c out -> exists items, c = New ((before ++ [ascii_of_N 10]) ++ after) items).
Proof. exact main_request. Qed.
Print Assumptions requested_headers_are_added_only.

(** Between the pragmas of the example of C48; a successful run. *)
Example requested_headers_are_added_only_example :
  let p := mkPragma true false [Ident ($"include"); Header ($"<c.h>")] in
  j_pragmas (good two_pragmas) = firstn 1 two_pragmas ++ skipn 1 two_pragmas /\ pg_accepted p = true /\ include_pragma p ($"<c.h>") /\
  observe (main anything [$"/a"; $"-"] false false [] [good two_pragmas] no_files) [$"/a"] = Some ([Generated 10], 1, 0%N) /\
  observe (main anything [$"/a"; $"-"] false false [] [requesting (good two_pragmas) (firstn 1 two_pragmas) p (skipn 1 two_pragmas)] no_files) [$"/a"] = Some ([Generated 10], 1, 0%N).
Proof. cbv zeta. split; [reflexivity|]. split; [reflexivity|]. split; [split; [reflexivity|discriminate]|]. split; vm_compute; reflexivity. Qed.
