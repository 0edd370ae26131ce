(** Model of CreateTransformerFromSavedData, as far as the bytes are concerned. *)
From Verif Require Import Base M_Archive M_Codec M_Save.

(** SharedLibrary_StringFeaturizer.cpp:261-263 (generated alike for every featurizer): the constructor from an archive over the bytes; what
    the constructor leaves of the archive is not looked at (Archive.h:202, [AtEnd], is not called). *)
Definition load_whole (k : kind) (bytes : list Z) : res val := do p <- k_load k bytes; Ok (fst p).
