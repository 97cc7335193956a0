*.aux
*.cache
*.glob
*.vo
*.vok
*.vos
.*.aux
.Makefile.d
.lia.cache
.nia.cache
Makefile
Makefile.conf
