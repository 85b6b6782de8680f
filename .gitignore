.nra.cache
.lia.cache
.nia.cache
.CoqMakefile.d
