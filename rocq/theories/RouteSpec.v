(** What routing is supposed to do (documentation of cio_http_location: the
    location is a prefix of the request target), stated without the code. *)
From Verif Require Import Base.
From Verif Require Import RouteModel.

(** The location covers the target: a non-empty prefix that ends at a path
    segment boundary. *)
Definition covers (loc target : list N) : Prop :=
  loc <> [] /\
  exists rest, target = loc ++ rest /\
    (rest = [] \/ (exists init, loc = init ++ [SLASH]) \/ (exists more, rest = SLASH :: more)).

(** The location [l] answers [target], given the history of registrations
    (oldest first): it covers the target, nothing registered that covers the target
    is longer, and nothing with the same path was registered after it. *)
Definition answers (history : list location) (target : list N) (l : location) : Prop :=
  covers (path l) target /\
  (exists older newer, history = older ++ l :: newer /\ forall x, In x newer -> path x <> path l) /\
  forall x, In x history -> covers (path x) target -> length (path x) <= length (path l).
