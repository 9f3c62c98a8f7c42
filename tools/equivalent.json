{
 "y12": "C64 is still true of the edited program (the theorem failed only because its proof used the initial strengths); C23 and C30 are the claims about them",
 "z45": "claim still true: all time steps have the same airplanes, so none is missing",
 "z48": "claim still true: C50 says the objective raises before it uses the weight",
 "b18": "not a program: the swapped arguments have different types",
 "b35": "could not be tried: the lemmas about doubles do not compile with the edited format",
 "b43": "claim still true: the index is always in range",
 "b86": "claim still true: the first panel of a row is an edge panel, for which the predecessor is not used",
 "b92": "claim still true: C50 says the objective raises before it takes the norm",
 "b93": "claim still true: C50 says the objective raises before it uses the weight",
 "b94": "claim still true: C50 says no trial is ever completed",
 "d12": "claim still true: all time steps have the same airplanes, so none is missing",
 "d29": "claim still true: every recorded entry is overwritten (C41)",
 "d22": "claim still true: the constructor of a wing sets the edge flags of every panel (C11), so none is unset"
}
