*.vo
*.vok
*.vos
*.glob
*.aux
.*.aux
.lia.cache
.nia.cache
.nra.cache
Makefile
Makefile.conf
Makefile.coq
Makefile.coq.conf
.Makefile.d
.Makefile.coq.d
