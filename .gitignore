*.vo
*.vok
*.vos
*.glob
.*.aux
.*.cache
.lia.cache
.nia.cache
.nra.cache
Makefile
Makefile.conf
.Makefile.d
CoqMakefile.conf
