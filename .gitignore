.lia.cache
*.vo
*.vok
*.vos
*.glob
.*.aux
Makefile*
.Makefile.d
.nia.cache
