*.vo
*.vok
*.vos
*.glob
*.aux
.*.aux
.lia.cache
.nra.cache
.nia.cache
.Makefile.d
Makefile
Makefile.conf
.CoqMakefile.d
CoqMakefile*
