(* Vocabulary for C107. *)
From Verif Require Import Prelude SpecTransducer SpecWipe.

(* calls other than flush and finish *)
Definition not_end (w : wop) : bool := match w with Call Flush | Call Finish => false | _ => true end.
