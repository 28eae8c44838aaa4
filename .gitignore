*.vo
*.vos
*.vok
*.glob
*.aux
.*.aux
.lia.cache
.nia.cache
Makefile.conf
.Makefile.d
rocq/Makefile
CoqMakefile*
