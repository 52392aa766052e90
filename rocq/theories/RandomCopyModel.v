(** The copy constructor of Random: /repo/library/Java/Util/Random/Random.cpp:116-118,
    Random.hpp:46-47 (the other fields are those of a new object). *)
From Coq Require Import ZArith List.
From Verif Require Import Base RandomGaussModel.
(** Random.cpp:116-118: only the seed is copied. haveNextGaussianNumber gets
    its default initialiser (Random.hpp:46); nextGaussianNumber (Random.hpp:47)
    stays uninitialised, which is [None]. The load of the seed and its store
    are one step: the copy is not shared yet. *)
Definition copy (g : generator) : generator := mkG (seed_ g) false None.
